(** Proofs about the store-level model of the blocklist: a run that is not
    interrupted does what Blocklist.v says, and what can be in the file at every
    point of a run. *)
From Coq Require Import Sorted.
From Verif Require Import Prelude Blocklist BlocklistSpec BlocklistProofs BlocklistSem BlocklistMain BlocklistStores.
Ltac Zify.zify_post_hook ::= Z.div_mod_to_equations.

(** ** Uninterrupted runs *)
Lemma er_bind {A B} (m : tr A) (k : A -> tr B) :
  erase (snd (tbind m k)) = obind (erase (snd m)) (fun a => erase (snd (k a))).
Proof. unfold tbind. destruct (snd m); reflexivity. Qed.

Lemma bind_eq {A B} (m : tr A) (f : outcome A) (k : A -> tr B) (g : A -> outcome B) :
  erase (snd m) = f -> (forall a, f = Done a -> erase (snd (k a)) = g a) ->
  erase (snd (tbind m k)) = obind f g.
Proof. intros E H. rewrite er_bind, E. destruct f; simpl; auto. Qed.

(** results without exceptions and loops *)
Definition plain {A} (o : outcome A) : Prop := o <> Throw /\ o <> Diverge.
Lemma er_pure {A} (o : outcome A) : plain o -> erase (snd (tpure o)) = o.
Proof. intros [H1 H2]. destruct o; try reflexivity; congruence. Qed.
Lemma plain_rd b i : plain (rd b i).
Proof. unfold rd, plain. destruct (bl_slots b !! i); split; discriminate. Qed.
Lemma plain_bump c s d : plain (bump_l c s d).
Proof. unfold bump_l, plain. destruct (0 <=? s); [|split; discriminate]. destruct (c !! _); split; discriminate. Qed.
Lemma plain_done {A} (a : A) : plain (Done a).
Proof. split; discriminate. Qed.
Lemma plain_bind {A B} (m : outcome A) (k : A -> outcome B) : plain m -> (forall a, plain (k a)) -> plain (obind m k).
Proof. intros [H1 H2] H. destruct m; simpl; auto; split; congruence. Qed.

Lemma er_wr t b i e : erase (snd (t_wr t b i e)) = wr b i e.
Proof. unfold t_wr, wr. destruct (_ <? _)%nat; reflexivity. Qed.

Lemma er_assert {A} c (k : tr A) : erase (snd (tassert c k)) = assert_ c (erase (snd k)).
Proof. destruct c; reflexivity. Qed.

Lemma er_put b i e : (i < length (bl_slots b))%nat -> erase (snd (t_put b i e)) = Done (set_slot b i e).
Proof.
  intros Hi. unfold t_put. rewrite er_bind, er_pure by apply plain_rd.
  unfold rd. destruct (lookup_lt_is_Some_2 _ _ Hi) as (o & Ho). rewrite Ho. cbn [obind].
  rewrite er_bind, er_wr. unfold wr. rewrite (proj2 (Nat.ltb_lt _ _) Hi). cbn [obind].
  rewrite er_wr. unfold wr, set_slot. cbn [bl_magic bl_n bl_cnt bl_slots]. rewrite insert_length, (proj2 (Nat.ltb_lt _ _) Hi).
  rewrite list_insert_insert. reflexivity.
Qed.

Lemma er_bump b s d : erase (snd (t_bump b s d)) = bump b s d.
Proof.
  unfold t_bump, bump. rewrite er_bind, er_pure by apply plain_bump. destruct (bump_l _ _ _); reflexivity.
Qed.

Lemma er_unaccount es : forall b, erase (snd (t_unaccount b es)) =
  obind (unaccount (bl_cnt b) es) (fun c => Done (set_cnt b c)).
Proof.
  induction es as [|e es IH]; intros b; cbn [t_unaccount unaccount].
  - destruct b; reflexivity.
  - rewrite er_bind, er_bump. unfold bump. destruct (bump_l _ _ _); try reflexivity. cbn [obind].
    rewrite IH. reflexivity.
Qed.

Definition moved_down (s : list entry) (dst d k : nat) : list entry :=
  take dst s ++ take k (drop (dst + d) s) ++ drop (dst + k) s.
Definition set_slots (b : bl) (s : list entry) : bl := mkBL (bl_magic b) (bl_n b) (bl_cnt b) s.

Lemma moved_down_lookup s dst d k i : (dst + d + k <= length s)%nat ->
  moved_down s dst d k !! i =
    if decide (dst <= i < dst + k)%nat then s !! (i + d)%nat else s !! i.
Proof.
  intros Hl. unfold moved_down. destruct (decide _) as [Hi|Hi].
  - rewrite lookup_app_r by (rewrite take_length; lia). rewrite take_length.
    rewrite lookup_app_l by (rewrite take_length, drop_length; lia).
    rewrite lookup_take by lia. rewrite lookup_drop. f_equal. lia.
  - destruct (decide (i < dst)%nat).
    + rewrite lookup_app_l by (rewrite take_length; lia). apply lookup_take; lia.
    + rewrite lookup_app_r by (rewrite take_length; lia). rewrite take_length.
      rewrite lookup_app_r by (rewrite take_length, drop_length; lia).
      rewrite take_length, drop_length, lookup_drop. f_equal. lia.
Qed.

Lemma er_move_down k : forall b dst d, (dst + d + k <= length (bl_slots b))%nat ->
  erase (snd (t_move_down b dst d k)) = Done (set_slots b (moved_down (bl_slots b) dst d k)).
Proof.
  induction k as [|k IH]; intros b dst d Hl; cbn [t_move_down].
  - simpl. f_equal. unfold set_slots, moved_down. rewrite Nat.add_0_r. simpl.
    rewrite take_drop. destruct b; reflexivity.
  - rewrite er_bind, er_pure by apply plain_rd. unfold rd.
    destruct (lookup_lt_is_Some_2 (bl_slots b) (dst + d)) as (e & He); [lia|]. rewrite He. cbn [obind].
    rewrite er_bind, er_put by lia. cbn [obind]. rewrite IH by (cbn; rewrite insert_length; lia).
    f_equal. unfold set_slots, set_slot. cbn [bl_magic bl_n bl_cnt bl_slots]. f_equal.
    apply list_eq. intros i.
    rewrite !moved_down_lookup by (rewrite ?insert_length; lia).
    destruct (decide (S dst <= i < S dst + k)%nat) as [H1|H1], (decide (dst <= i < dst + S k)%nat) as [H2|H2]; try lia.
    + rewrite list_lookup_insert_ne by lia. reflexivity.
    + assert (i = dst) as -> by lia. rewrite list_lookup_insert by lia. symmetry. exact He.
    + rewrite list_lookup_insert_ne by lia. reflexivity.
Qed.

Definition moved_up (s : list entry) (src k : nat) : list entry :=
  take src s ++ take 1 (drop src s) ++ take k (drop src s) ++ drop (S (src + k)) s.

Lemma moved_up_lookup s src k i : (src + k < length s)%nat ->
  moved_up s src k !! i = if decide (src < i <= src + k)%nat then s !! (i - 1)%nat else s !! i.
Proof.
  intros Hl. unfold moved_up.
  destruct (decide (i < src)%nat).
  { destruct (decide _); [lia|]. rewrite lookup_app_l by (rewrite take_length; lia). apply lookup_take; lia. }
  rewrite lookup_app_r by (rewrite take_length; lia). rewrite take_length.
  destruct (decide (i = src)%nat) as [->|].
  { destruct (decide _); [lia|]. rewrite lookup_app_l by (rewrite take_length, drop_length; lia).
    rewrite lookup_take by lia. rewrite lookup_drop. f_equal. lia. }
  rewrite lookup_app_r by (rewrite take_length, drop_length; lia). rewrite take_length, drop_length.
  destruct (decide (src < i <= src + k)%nat).
  - rewrite lookup_app_l by (rewrite take_length, drop_length; lia).
    rewrite lookup_take by lia. rewrite lookup_drop. f_equal. lia.
  - rewrite lookup_app_r by (rewrite take_length, drop_length; lia).
    rewrite take_length, drop_length, lookup_drop. f_equal. lia.
Qed.

Lemma er_move_up k : forall b src, (src + k < length (bl_slots b))%nat ->
  erase (snd (t_move_up b src k)) = Done (set_slots b (moved_up (bl_slots b) src k)).
Proof.
  induction k as [|k IH]; intros b src Hl; cbn [t_move_up].
  - simpl. f_equal. unfold set_slots. destruct b as [m n c s]; cbn in *. f_equal.
    apply list_eq. intros i. rewrite moved_up_lookup by lia. destruct (decide _); [lia|reflexivity].
  - rewrite er_bind, er_pure by apply plain_rd. unfold rd.
    destruct (lookup_lt_is_Some_2 (bl_slots b) (src + k)) as (e & He); [lia|]. rewrite He. cbn [obind].
    rewrite er_bind, er_put by lia. cbn [obind]. rewrite IH by (cbn; rewrite insert_length; lia).
    f_equal. unfold set_slots, set_slot. cbn [bl_magic bl_n bl_cnt bl_slots]. f_equal.
    apply list_eq. intros i. rewrite !moved_up_lookup by (rewrite ?insert_length; lia).
    destruct (decide (src < i <= src + k)%nat) as [H1|H1], (decide (src < i <= src + S k)%nat) as [H2|H2]; try lia.
    + rewrite list_lookup_insert_ne by lia. reflexivity.
    + assert (i = S (src + k)) as -> by lia. rewrite list_lookup_insert by lia. rewrite <- He. f_equal. lia.
    + rewrite list_lookup_insert_ne by lia. reflexivity.
Qed.

Definition fits (b : bl) : Prop := (bl_n b <= length (bl_slots b))%nat.

Lemma er_delete_range b ib ie : fits b -> erase (snd (t_delete_range b ib ie)) = delete_range b ib ie.
Proof.
  intros Hf. unfold fits in Hf. unfold t_delete_range, delete_range.
  rewrite er_assert. destruct (ib <=? ie)%nat eqn:E1; [|reflexivity]. cbn [assert_].
  rewrite er_assert. destruct (ie <=? bl_n b)%nat eqn:E2; [|reflexivity]. cbn [assert_].
  rewrite er_assert. destruct (bl_n b - ie + (ie - ib) <=? bl_n b)%nat eqn:E3; [|reflexivity]. cbn [assert_].
  rewrite (proj2 (Nat.leb_le _ _) Hf). apply Nat.leb_le in E1, E2.
  rewrite er_bind, er_unaccount. destruct (unaccount _ _) as [c| | |]; try reflexivity. cbn [obind].
  rewrite er_bind, er_move_down by (cbn; lia). cbn. f_equal. f_equal. unfold moved_down.
  replace (ib + (ie - ib))%nat with ie by lia. reflexivity.
Qed.

Lemma fits_delete b ib ie b' : fits b -> delete_range b ib ie = Done b' -> fits b' /\ length (bl_slots b') = length (bl_slots b) /\
  (ib <= ie <= bl_n b)%nat /\ bl_n b' = (bl_n b - (ie - ib))%nat.
Proof.
  unfold fits, delete_range. intros Hf. destruct (ib <=? ie)%nat eqn:E1; cbn [assert_]; [|discriminate].
  destruct (ie <=? bl_n b)%nat eqn:E2; cbn [assert_]; [|discriminate].
  destruct (bl_n b - ie + (ie - ib) <=? bl_n b)%nat eqn:E3; cbn [assert_]; [|discriminate].
  rewrite (proj2 (Nat.leb_le _ _) Hf). destruct (unaccount _ _); cbn [obind]; try discriminate.
  intros [= <-]. cbn. rewrite !app_length, !take_length, !drop_length.
  apply Nat.leb_le in E1, E2. lia.
Qed.

Lemma er_delete_entry b i : fits b -> erase (snd (t_delete_entry b i)) = delete_entry b i.
Proof.
  intros Hf. unfold t_delete_entry, delete_entry. destruct (_ =? _)%nat; [reflexivity|]. apply er_delete_range; assumption.
Qed.

Lemma fits_wr b i e b' : wr b i e = Done b' -> fits b -> fits b' /\ bl_n b' = bl_n b /\ length (bl_slots b') = length (bl_slots b).
Proof.
  unfold wr, fits. destruct (_ <? _)%nat; [|discriminate]. intros [= <-] H. cbn. rewrite insert_length. auto.
Qed.
Lemma fits_bump b s d b' : bump b s d = Done b' -> fits b -> fits b' /\ bl_n b' = bl_n b /\ bl_slots b' = bl_slots b.
Proof. unfold bump, fits. destruct (bump_l _ _ _); [|discriminate..]. intros [= <-] H. auto. Qed.

Lemma er_try_merge b it : fits b -> erase (snd (t_try_merge b it)) = try_merge_with_previous b it.
Proof.
  intros Hf. unfold t_try_merge, try_merge_with_previous. destruct (it =? 0)%nat; [reflexivity|]. cbv zeta.
  eapply bind_eq; [apply er_pure, plain_rd|]. intros ep _.
  eapply bind_eq; [apply er_pure, plain_rd|]. intros ei _.
  destruct (negb _); [reflexivity|]. destruct (negb _); [reflexivity|]. destruct (65535 <? _); [reflexivity|].
  eapply bind_eq; [apply er_wr|]. intros b1 H1. apply fits_wr in H1 as (F1 & _); [|assumption].
  eapply bind_eq; [apply er_bump|]. intros b2 H2. apply fits_bump in H2 as (F2 & _); [|assumption].
  eapply bind_eq; [apply er_delete_entry; assumption|]. reflexivity.
Qed.

Lemma fits_try_merge b it f i b' : fits b -> try_merge_with_previous b it = Done (f, i, b') -> fits b'.
Proof.
  intros Hf. unfold try_merge_with_previous. destruct (it =? 0)%nat; [intros [= <- <- <-]; assumption|]. cbv zeta.
  destruct (rd b (it - 1)) as [ep| | |]; cbn [obind]; try discriminate.
  destruct (rd b it) as [ei| | |]; cbn [obind]; try discriminate.
  destruct (negb _); [intros [= <- <- <-]; assumption|]. destruct (negb _); [intros [= <- <- <-]; assumption|].
  destruct (65535 <? _); [intros [= <- <- <-]; assumption|].
  destruct (wr _ _ _) as [b1| | |] eqn:H1; cbn [obind]; try discriminate.
  apply fits_wr in H1 as (F1 & _); [|assumption].
  destruct (bump _ _ _) as [b2| | |] eqn:H2; cbn [obind]; try discriminate.
  apply fits_bump in H2 as (F2 & _); [|assumption]. unfold delete_entry. destruct (_ =? _)%nat; cbn [obind].
  { intros [= _ _ <-]. assumption. }
  destruct (delete_range _ _ _) as [b3| | |] eqn:H3; cbn [obind]; try discriminate.
  apply fits_delete in H3; [|assumption]. intros [= _ _ <-]. tauto.
Qed.

Lemma er_insert b dest e : fits b -> erase (snd (t_insert_before b dest e)) = insert_before b dest e.
Proof.
  intros Hf. unfold fits in Hf. unfold t_insert_before, insert_before.
  destruct (dest <=? bl_n b)%nat eqn:E; [|reflexivity]. apply Nat.leb_le in E.
  eapply (bind_eq _ (require_space b)).
  { unfold t_require_space, require_space. destruct (_ =? _)%nat; rewrite er_bind; cbn [tstore tret snd erase obind];
      rewrite er_assert; reflexivity. }
  intros b1 H1.
  assert (bl_n b1 = bl_n b /\ bl_n b < length (bl_slots b1))%nat as (Hn & Hl).
  { unfold require_space in H1. destruct (capacity b =? bl_n b)%nat; cbv zeta in H1; unfold assert_ in H1;
      (destruct (_ <? _)%nat eqn:E2 in H1; [|discriminate]); injection H1 as <-; apply Nat.ltb_lt in E2;
      unfold capacity in E2; cbn in *; lia. }
  rewrite er_bind, er_move_up by lia. cbn [obind].
  rewrite er_bind, er_put. 2:{ cbn. unfold moved_up. rewrite !app_length, !take_length, !drop_length. lia. }
  cbn. rewrite Hn. f_equal. unfold set_n, set_slot, set_slots. cbn [bl_magic bl_n bl_cnt bl_slots]. f_equal.
  apply list_eq. intros i.
  destruct (decide (i = dest)) as [->|Hi].
  - rewrite list_lookup_insert.
    2:{ unfold moved_up. rewrite !app_length, !take_length, !drop_length. lia. }
    rewrite lookup_app_r by (rewrite take_length; lia). rewrite take_length.
    replace (dest - dest `min` length (bl_slots b1))%nat with 0%nat by lia. reflexivity.
  - rewrite list_lookup_insert_ne by congruence. rewrite moved_up_lookup by lia.
    destruct (decide (i < dest)%nat).
    + destruct (decide _); [lia|]. rewrite lookup_app_l by (rewrite take_length; lia). rewrite lookup_take by lia. reflexivity.
    + rewrite lookup_app_r by (rewrite take_length; lia). rewrite take_length.
      replace (i - dest `min` length (bl_slots b1))%nat with (S (i - S dest)) by lia.
      match goal with |- _ = (_ :: ?l) !! S ?j => change ((e :: l) !! S j) with (l !! j) end.
      destruct (decide _).
      * rewrite lookup_app_l by (rewrite take_length, drop_length; lia). rewrite lookup_take by lia.
        rewrite lookup_drop. f_equal. lia.
      * rewrite lookup_app_r by (rewrite take_length, drop_length; lia). rewrite take_length, drop_length, lookup_drop.
        f_equal. lia.
Qed.

Lemma fits_insert b dest e b' : fits b -> insert_before b dest e = Done b' -> fits b' /\ bl_n b' = S (bl_n b).
Proof.
  unfold fits, insert_before. intros Hf. destruct (dest <=? bl_n b)%nat eqn:E; [|discriminate]. apply Nat.leb_le in E.
  destruct (require_space b) as [b1| | |] eqn:H1; cbn [obind]; try discriminate. intros [= <-].
  assert (bl_n b1 = bl_n b /\ bl_n b < length (bl_slots b1))%nat as (Hn & Hl).
  { unfold require_space in H1. destruct (capacity b =? bl_n b)%nat; cbv zeta in H1; unfold assert_ in H1;
      (destruct (_ <? _)%nat eqn:E2 in H1; [|discriminate]); injection H1 as <-; apply Nat.ltb_lt in E2;
      unfold capacity in E2; cbn in *; lia. }
  cbn [bl_n bl_slots]. rewrite app_length. cbn [length]. rewrite app_length, !take_length, !drop_length. lia.
Qed.

Lemma er_split b i p : fits b -> erase (snd (t_split_entry b i p)) = split_entry b i p.
Proof.
  intros Hf. unfold t_split_entry, split_entry.
  eapply bind_eq; [apply er_pure, plain_rd|]. intros e _.
  rewrite er_assert. f_equal. rewrite er_assert. f_equal. cbv zeta.
  eapply bind_eq; [apply er_wr|]. intros b1 H1. apply fits_wr in H1 as (F1 & _); [|assumption].
  eapply bind_eq; [apply er_insert; assumption|]. intros b2 _.
  eapply bind_eq; [apply er_pure, plain_rd|]. intros l _.
  eapply bind_eq; [apply er_pure, plain_rd|]. intros r _.
  rewrite !er_assert. reflexivity.
Qed.
Lemma fits_split b i p b' : fits b -> split_entry b i p = Done b' -> fits b'.
Proof.
  intros Hf. unfold split_entry. destruct (rd b i) as [e| | |]; cbn [obind]; try discriminate.
  unfold assert_. destruct (_ <=? _); [|discriminate]. destruct (_ <? _); [|discriminate].
  destruct (wr _ _ _) as [b1| | |] eqn:H1; cbn [obind]; try discriminate. apply fits_wr in H1 as (F1 & _); [|assumption].
  destruct (insert_before _ _ _) as [b2| | |] eqn:H2; cbn [obind]; try discriminate. apply fits_insert in H2 as (F2 & _); [|assumption].
  destruct (rd b2 i); cbn [obind]; try discriminate. destruct (rd b2 (S i)); cbn [obind]; try discriminate.
  repeat (match goal with |- context [if ?c then _ else _] => destruct c end; try discriminate).
  intros [= <-]. assumption.
Qed.

Lemma er_merge_around b i : fits b -> erase (snd (t_merge_around b i)) = merge_around b i.
Proof.
  intros Hf. unfold t_merge_around, merge_around.
  eapply bind_eq.
  {     destruct (negb _); [|reflexivity]. eapply bind_eq; [apply er_try_merge; assumption|]. intros [[s m] b1] _. reflexivity. }
  intros [j b1] H1.
  assert (fits b1) as F1.
  { destruct (negb _); [|injection H1 as _ <-; assumption].
    destruct (try_merge_with_previous b (S i)) as [[[s m] b2]| | |] eqn:H2; cbn [obind] in H1; try discriminate.
    injection H1 as _ <-. eapply fits_try_merge; eassumption. }
  eapply bind_eq; [apply er_try_merge; assumption|]. intros [[s m] b2] _. reflexivity.
Qed.

Lemma er_exact b so eo e start count state : fits b ->
  (state =? ABSENT = true \/ (so < length (bl_slots b))%nat) ->
  erase (snd (t_mark_exact b so eo e start count state)) = mark_exact b so eo e start count state.
Proof.
  intros Hf Hso. unfold t_mark_exact, mark_exact. destruct (state =? ABSENT); [apply er_delete_range; assumption|].
  destruct Hso as [?|Hso]; [discriminate|].
  eapply bind_eq; [apply er_bump|]. intros b1 H1. apply fits_bump in H1 as (F1 & N1 & S1); [|assumption].
  eapply bind_eq.
  { rewrite er_put by (rewrite S1; assumption). unfold wr. rewrite (proj2 (Nat.ltb_lt _ _)) by (rewrite S1; assumption). reflexivity. }
  intros b2 H2. apply fits_wr in H2 as (F2 & _); [|assumption].
  eapply bind_eq; [apply er_bump|]. intros b3 H3. apply fits_bump in H3 as (F3 & _); [|assumption].
  eapply bind_eq; [apply er_delete_range; assumption|]. intros b4 H4. apply fits_delete in H4 as (F4 & _); [|assumption].
  apply er_merge_around; assumption.
Qed.

Lemma er_trim_start b so e start : erase (snd (t_mark_trim_start b so e start)) = mark_trim_start b so e start.
Proof.
  unfold t_mark_trim_start, mark_trim_start. cbv zeta. eapply bind_eq; [apply er_wr|]. intros b1 _.
  rewrite !er_assert, er_bump. reflexivity.
Qed.
Lemma fits_trim_start b so e start b' : fits b -> mark_trim_start b so e start = Done b' -> fits b'.
Proof.
  intros Hf. unfold mark_trim_start. destruct (wr _ _ _) as [b1| | |] eqn:H1; cbn [obind]; try discriminate.
  apply fits_wr in H1 as (F1 & _); [|assumption]. unfold assert_.
  repeat (match goal with |- context [if ?c then _ else _] => destruct c end; try discriminate).
  intros H2. apply fits_bump in H2; tauto.
Qed.

Lemma er_trim_end b eo end_ : erase (snd (t_mark_trim_end b eo end_)) = mark_trim_end b eo end_.
Proof.
  unfold t_mark_trim_end, mark_trim_end. eapply bind_eq; [apply er_pure, plain_rd|]. intros e He. cbv zeta.
  unfold rd in He. destruct (bl_slots b !! eo) as [e'|] eqn:E; [|discriminate].
  apply lookup_lt_Some in E. rewrite er_bind, er_wr. unfold wr at 1. rewrite (proj2 (Nat.ltb_lt _ _) E). cbn [obind].
  eapply bind_eq.
  { rewrite er_wr. unfold wr. cbn [bl_magic bl_n bl_cnt bl_slots]. rewrite insert_length, (proj2 (Nat.ltb_lt _ _) E), list_insert_insert. reflexivity. }
  intros b1 _. rewrite !er_assert, er_bump. reflexivity.
Qed.
Lemma fits_trim_end b eo x b' : fits b -> mark_trim_end b eo x = Done b' -> fits b'.
Proof.
  intros Hf. unfold mark_trim_end. destruct (rd b eo) as [e| | |]; cbn [obind]; try discriminate.
  destruct (wr _ _ _) as [b1| | |] eqn:H1; cbn [obind]; try discriminate.
  apply fits_wr in H1 as (F1 & _); [|assumption]. unfold assert_.
  repeat (match goal with |- context [if ?c then _ else _] => destruct c end; try discriminate).
  intros H2. apply fits_bump in H2; tauto.
Qed.

Lemma er_tail b so eo ec start count state : fits b ->
  erase (snd (t_mark_tail b so eo ec start count state)) = mark_tail b so eo ec start count state.
Proof.
  intros Hf. unfold t_mark_tail, mark_tail.
  eapply bind_eq.
  {     destruct ec; [apply er_trim_end|reflexivity]. }
  intros b1 H1.
  assert (fits b1) as F1 by (destruct ec; [eapply fits_trim_end; eassumption|injection H1 as <-; assumption]).
  cbv zeta. eapply bind_eq; [apply er_delete_range; assumption|]. intros b2 H2. apply fits_delete in H2 as (F2 & _); [|assumption].
  destruct (state =? ABSENT); [reflexivity|].
  eapply bind_eq; [apply er_insert; assumption|]. intros b3 H3. apply fits_insert in H3 as (F3 & _); [|assumption].
  eapply bind_eq; [apply er_pure, plain_rd|]. intros ins _.
  eapply bind_eq; [apply er_bump|]. intros b4 H4. apply fits_bump in H4 as (F4 & _); [|assumption].
  apply er_merge_around; assumption.
Qed.

(** the binary search stays among the live entries *)
Lemma ub_loop_total fuel : forall b x first len, fits b -> (len <= fuel)%nat -> (first + len <= bl_n b)%nat ->
  exists i, ub_loop fuel b x first len = Done i /\ (first <= i <= first + len)%nat.
Proof.
  induction fuel as [|fuel IH]; intros b x first len Hf Hl Hn.
  - assert (len = 0)%nat as -> by lia. exists first. split; [reflexivity|lia].
  - destruct len as [|len]; [exists first; split; [reflexivity|lia]|].
    cbn [ub_loop]. set (h := Nat.div2 (S len)). assert (h <= len)%nat.
    { unfold h. rewrite Nat.div2_div. apply Nat.lt_succ_r. apply Nat.div_lt; lia. }
    unfold rd. destruct (lookup_lt_is_Some_2 (bl_slots b) (first + h)) as (e & He); [unfold fits in Hf; lia|].
    rewrite He. cbn [obind]. destruct (x <? e_end e).
    + destruct (IH b x first h) as (i & E & Hi); [assumption|lia|lia|]. exists i. split; [exact E|lia].
    + destruct (IH b x (S (first + h)) (S len - h - 1)%nat) as (i & E & Hi); [assumption|lia|lia|].
      exists i. split; [exact E|lia].
Qed.
Lemma search_total b x : fits b -> exists i, search_entry b x = Done i /\ (i <= bl_n b)%nat.
Proof. intros Hf. destruct (ub_loop_total (bl_n b) b x 0 (bl_n b)) as (i & E & Hi); [assumption|lia..|]. exists i. split; [exact E|lia]. Qed.

Lemma find_total b s c : fits b -> exists so eo, find_overlapping_entries b s c = Done (so, eo) /\
  (so <= bl_n b)%nat /\ (eo <= bl_n b)%nat.
Proof.
  intros Hf. unfold find_overlapping_entries. destruct (bl_n b =? 0)%nat eqn:E0; [exists (bl_n b), (bl_n b); auto|].
  cbv zeta. destruct (search_total b s Hf) as (so & -> & Hso). cbn [obind].
  destruct (so =? bl_n b)%nat eqn:E1; [exists (bl_n b - 1)%nat, (bl_n b); auto with lia|].
  apply Nat.eqb_neq in E1. unfold rd. destruct (lookup_lt_is_Some_2 (bl_slots b) so) as (e & He); [unfold fits in Hf; lia|].
  rewrite He. cbn [obind]. destruct (search_total b (w64 (s + c)) Hf) as (eo & -> & Heo). cbn [obind].
  eexists _, _. split; [reflexivity|]. split; [|assumption].
  destruct (contains e s); [assumption|]. destruct (so =? 0)%nat; lia.
Qed.

Theorem er_mark_internal b s c v : fits b -> erase (snd (t_mark_internal b s c v)) = mark_internal b s c v.
Proof.
  intros Hf. unfold t_mark_internal, mark_internal. cbv zeta.
  eapply bind_eq. { apply er_pure. destruct (find_total b s c Hf) as (so & eo & -> & _). apply plain_done. }
  intros [so eo] _.
  eapply bind_eq.
  {     destruct (_ && _); [|reflexivity]. eapply bind_eq; [apply er_split; assumption|reflexivity]. }
  intros [b1 eo1] H1.
  assert (fits b1) as F1.
  { destruct (_ && _); [|injection H1 as <- _; assumption].
    destruct (split_entry b so s) as [b2| | |] eqn:H2; cbn [obind] in H1; try discriminate. injection H1 as <- _.
    eapply fits_split; eassumption. }
  eapply bind_eq. { apply er_pure. destruct (negb (so =? bl_n b1)%nat); [|apply plain_done]. apply plain_bind; [apply plain_rd|]. intros; apply plain_done. }
  intros sc Hsc.
  eapply bind_eq. { apply er_pure. destruct (negb (eo1 =? bl_n b1)%nat); [|apply plain_done]. apply plain_bind; [apply plain_rd|]. intros; apply plain_done. }
  intros ec _. clear H1. destruct sc; [|apply er_tail; assumption].
  eapply bind_eq; [apply er_pure, plain_rd|]. intros e He.
  destruct ((e_start e =? s) && (e_count e <=? c)).
  - apply er_exact; [assumption|]. right. unfold rd in He. destruct (bl_slots b1 !! so) eqn:E; [|discriminate].
    eapply lookup_lt_Some; eassumption.
  - eapply bind_eq; [apply er_trim_start|]. intros b2 H2. apply er_tail. eapply fits_trim_start; eassumption.
Qed.

Lemma fits_merge_around b i b' : fits b -> merge_around b i = Done b' -> fits b'.
Proof.
  intros Hf. unfold merge_around. cbv zeta. intros H.
  assert (exists j b1, fits b1 /\ obind (try_merge_with_previous b1 j) (fun '(_, _, b) => Done b) = Done b') as (j & b1 & F1 & H1).
  { destruct (negb _); [|eauto].
    destruct (try_merge_with_previous b (S i)) as [[[f j] b1]| | |] eqn:E; cbn [obind] in H; try discriminate.
    eexists _, b1. split; [eapply fits_try_merge; eassumption|exact H]. }
  destruct (try_merge_with_previous b1 j) as [[[f k] b2]| | |] eqn:E; cbn [obind] in H1; try discriminate.
  injection H1 as <-. eapply fits_try_merge; [exact F1|exact E].
Qed.

Lemma fits_exact b so eo e s c v b' : fits b -> mark_exact b so eo e s c v = Done b' -> fits b'.
Proof.
  intros Hf. unfold mark_exact. destruct (v =? ABSENT). { intros H; apply fits_delete in H; tauto. }
  destruct (bump _ _ _) as [b1| | |] eqn:H1; cbn [obind]; try discriminate. apply fits_bump in H1 as (F1 & _); [|assumption].
  destruct (wr _ _ _) as [b2| | |] eqn:H2; cbn [obind]; try discriminate. apply fits_wr in H2 as (F2 & _); [|assumption].
  destruct (bump _ _ _) as [b3| | |] eqn:H3; cbn [obind]; try discriminate. apply fits_bump in H3 as (F3 & _); [|assumption].
  destruct (delete_range _ _ _) as [b4| | |] eqn:H4; cbn [obind]; try discriminate. apply fits_delete in H4 as (F4 & _); [|assumption].
  apply fits_merge_around; assumption.
Qed.

Lemma fits_tail b so eo ec s c v b' : fits b -> mark_tail b so eo ec s c v = Done b' -> fits b'.
Proof.
  intros Hf. unfold mark_tail. cbv zeta.
  destruct (if ec then _ else _) as [b1| | |] eqn:H1; cbn [obind]; try discriminate.
  assert (fits b1) as F1 by (destruct ec; [eapply fits_trim_end; eassumption|injection H1 as <-; assumption]).
  destruct (delete_range _ _ _) as [b2| | |] eqn:H2; cbn [obind]; try discriminate. apply fits_delete in H2 as (F2 & _); [|assumption].
  destruct (v =? ABSENT); [intros [= <-]; assumption|].
  destruct (insert_before _ _ _) as [b3| | |] eqn:H3; cbn [obind]; try discriminate. apply fits_insert in H3 as (F3 & _); [|assumption].
  destruct (rd _ _) as [ins| | |]; cbn [obind]; try discriminate.
  destruct (bump _ _ _) as [b4| | |] eqn:H4; cbn [obind]; try discriminate. apply fits_bump in H4 as (F4 & _); [|assumption].
  apply fits_merge_around; assumption.
Qed.

Lemma fits_internal b s c v b' : fits b -> mark_internal b s c v = Done b' -> fits b'.
Proof.
  intros Hf. unfold mark_internal. cbv zeta.
  destruct (find_overlapping_entries b s c) as [[so eo]| | |]; cbn [obind]; try discriminate.
  destruct (if _ && _ then _ else _) as [[b1 eo1]| | |] eqn:H1; cbn [obind]; try discriminate.
  assert (fits b1) as F1.
  { destruct (_ && _); [|injection H1 as <- _; assumption].
    destruct (split_entry b so s) as [b2| | |] eqn:H2; cbn [obind] in H1; try discriminate. injection H1 as <- _.
    eapply fits_split; eassumption. }
  clear H1. destruct (if negb (so =? bl_n b1)%nat then _ else _) as [sc| | |]; cbn [obind]; try discriminate.
  destruct (if negb (eo1 =? bl_n b1)%nat then _ else _) as [ec| | |]; cbn [obind]; try discriminate.
  destruct sc; [|apply fits_tail; assumption].
  destruct (rd b1 so) as [e| | |]; cbn [obind]; try discriminate.
  destruct (_ && _); [apply fits_exact; assumption|].
  destruct (mark_trim_start _ _ _ _) as [b2| | |] eqn:H2; cbn [obind]; try discriminate.
  apply fits_tail. eapply fits_trim_start; eassumption.
Qed.

(** an uninterrupted run does what Blocklist.v says *)
Theorem er_mark b s c v : fits b -> erase (snd (t_mark b s c v)) = mark b s c v.
Proof.
  intros Hf. unfold t_mark, mark. set (n := Z.to_N (c / LIMIT)).
  set (g := fun acc : outcome (bl * Z * Z) => mark_body acc v).
  assert (HI : erase (snd (N.iter n (t_mark_body v) (tret (b, s, c)))) = N.iter n g (Done (b, s, c)) /\
    forall b1 s1 c1, N.iter n g (Done (b, s, c)) = Done (b1, s1, c1) -> fits b1).
  { induction n as [|n IH] using N.peano_ind.
    - split; [reflexivity|]. intros b1 s1 c1 [= <- _ _]. exact Hf.
    - rewrite !N.iter_succ. destruct IH as (IH1 & IH2). split.
      + unfold t_mark_body at 1. unfold g at 1. unfold mark_body at 1. fold g.
        eapply bind_eq; [exact IH1|]. intros [[b1 s1] c1] E. destruct (LIMIT <? c1); [|reflexivity].
        eapply bind_eq; [apply er_mark_internal; eapply IH2; exact E|]. reflexivity.
      + intros b2 s2 c2. unfold g at 1, mark_body at 1. fold g.
        destruct (N.iter n g (Done (b, s, c))) as [[[b1 s1] c1]| | |]; cbn [obind]; try discriminate.
        specialize (IH2 _ _ _ eq_refl). destruct (LIMIT <? c1); [|intros [= <- _ _]; assumption].
        destruct (mark_internal b1 s1 LIMIT v) as [b3| | |] eqn:E; cbn [obind]; try discriminate.
        intros [= <- _ _]. eapply fits_internal; eassumption. }
  destruct HI as (HI1 & HI2). eapply bind_eq; [exact HI1|]. intros [[b1 s1] c1] E.
  destruct (0 <? c1); [|reflexivity]. apply er_mark_internal. eapply HI2; exact E.
Qed.

(** ** What is in the file at every point of a run *)
Section Points.
Context (P : Z -> Z -> Prop).

(** an entry all of whose blocks have an admissible state *)
Definition okE (e : entry) : Prop :=
  ebound e /\ forall x, e_start e <= x < xend e -> P x (e_state e).
Definition geom (b : bl) : Prop :=
  bl_magic b = magic /\ Z.of_nat (length (bl_slots b)) mod 256 = 224 /\ length (bl_cnt b) = 4%nat.
Definition holds (k : nat) (b : bl) : Prop :=
  (k <= length (bl_slots b))%nat /\ forall i e, (i < k)%nat -> bl_slots b !! i = Some e -> okE e.
Definition okB (b : bl) : Prop := geom b /\ holds (bl_n b) b.

Definition post {A} (m : tr A) (Q : A -> Prop) : Prop :=
  (forall b, In (false, b) (fst m) -> okB b) /\
  match snd m with TDone a => Q a | TAbort => True | TUB => False end.

Lemma post_ret {A} (a : A) (Q : A -> Prop) : Q a -> post (tret a) Q.
Proof. intros H. split; [intros b []|exact H]. Qed.
Lemma post_bind {A B} (m : tr A) (k : A -> tr B) (Q : A -> Prop) (R : B -> Prop) :
  post m Q -> (forall a, Q a -> post (k a) R) -> post (tbind m k) R.
Proof.
  intros [H1 H2] Hk. unfold tbind. destruct (snd m) as [a| |]; cbn [fst snd].
  - destruct (Hk a H2) as [K1 K2]. split; [|exact K2]. intros b Hb. cbn in Hb. apply in_app_iff in Hb as [Hb|Hb]; auto.
  - split; auto.
  - destruct H2.
Qed.
Lemma post_assert {A} c (k : tr A) (Q : A -> Prop) : (c = true -> post k Q) -> post (tassert c k) Q.
Proof. intros H. destruct c; [apply H; reflexivity|]. split; [intros b []|exact I]. Qed.
Lemma post_pure {A} (a : A) o (Q : A -> Prop) : o = Done a -> Q a -> post (tpure o) Q.
Proof. intros -> H. split; [intros b []|exact H]. Qed.
Lemma post_store t b (Q : bl -> Prop) : (t = false -> okB b) -> Q b -> post (tstore t b) Q.
Proof. intros H HQ. split; [|exact HQ]. intros b' [[= -> ->]|[]]. auto. Qed.
Lemma post_weaken {A} (m : tr A) (Q R : A -> Prop) : post m Q -> (forall a, Q a -> R a) -> post m R.
Proof. intros [H1 H2] H. split; [exact H1|]. destruct (snd m); auto. Qed.

Lemma holds_lookup k b i : holds k b -> (i < k)%nat -> exists e, bl_slots b !! i = Some e /\ okE e.
Proof.
  intros [H1 H2] Hi. destruct (lookup_lt_is_Some_2 (bl_slots b) i) as (e & He); [lia|]. exists e. eauto.
Qed.
Lemma holds_set k b i e : holds k b -> okE e -> holds k (set_slot b i e).
Proof.
  intros [H1 H2] He. split; [cbn; rewrite insert_length; exact H1|]. intros j e' Hj. cbn.
  destruct (decide (i = j)) as [->|Hn].
  - rewrite list_lookup_insert by lia. intros [= <-]. exact He.
  - rewrite list_lookup_insert_ne by exact Hn. apply H2; exact Hj.
Qed.
Lemma holds_le k k' b : holds k b -> (k' <= k)%nat -> holds k' b.
Proof. intros [H1 H2] H. split; [lia|]. intros i e Hi. apply H2. lia. Qed.
Lemma geom_set b i e : geom b -> geom (set_slot b i e).
Proof. intros (H1 & H2 & H3). unfold geom. cbn. rewrite insert_length. auto. Qed.

Lemma post_wr t b i e (Q : bl -> Prop) : (i < length (bl_slots b))%nat ->
  (t = false -> okB (set_slot b i e)) -> Q (set_slot b i e) -> post (t_wr t b i e) Q.
Proof. intros Hi H1 H2. unfold t_wr. rewrite (proj2 (Nat.ltb_lt _ _) Hi). apply post_store; assumption. Qed.

Lemma set_set b i e e' : set_slot (set_slot b i e) i e' = set_slot b i e'.
Proof. unfold set_slot. cbn. rewrite list_insert_insert. reflexivity. Qed.

Lemma post_put b i e (Q : bl -> Prop) : (i < length (bl_slots b))%nat ->
  okB (set_slot b i e) -> Q (set_slot b i e) -> post (t_put b i e) Q.
Proof.
  intros Hi H1 H2. unfold t_put. destruct (lookup_lt_is_Some_2 (bl_slots b) i Hi) as (o & Ho).
  eapply post_bind; [eapply (post_pure o _ (eq o)); [unfold rd; rewrite Ho; reflexivity|reflexivity]|]. intros ? <-.
  eapply post_bind; [eapply (post_wr _ _ _ _ (eq _)); [exact Hi|discriminate|reflexivity]|]. intros ? <-.
  apply post_wr; [cbn; rewrite insert_length; exact Hi|rewrite set_set; auto|rewrite set_set; assumption].
Qed.

Lemma bump_ok c s d : length c = 4%nat -> 0 <= s <= 3 -> exists c', bump_l c s d = Done c' /\ length c' = 4%nat.
Proof.
  intros Hc Hs. unfold bump_l. rewrite (proj2 (Z.leb_le _ _)) by lia.
  destruct (lookup_lt_is_Some_2 c (Z.to_nat s)) as (v & Hv); [lia|]. rewrite Hv. eexists. split; [reflexivity|].
  rewrite insert_length. exact Hc.
Qed.

(** same slots and entry count *)
Definition same (b b' : bl) : Prop := bl_slots b' = bl_slots b /\ bl_n b' = bl_n b /\ geom b'.
Lemma same_okB b b' : okB b -> same b b' -> okB b'.
Proof. intros [_ [H1 H2]] (E1 & E2 & E3). split; [exact E3|]. unfold holds. rewrite E1, E2. auto. Qed.

Lemma post_bump b s d : okB b -> 0 <= s <= 3 -> post (t_bump b s d) (same b).
Proof.
  intros Hb Hs. assert (H4 := Hb). destruct H4 as [(G1 & G2 & G3) Hh].
  destruct (bump_ok (bl_cnt b) s d G3 Hs) as (c' & Hc & Hl).
  unfold t_bump. eapply post_bind; [eapply (post_pure c' _ (eq c')); [exact Hc|reflexivity]|]. intros ? <-.
  apply post_store; [intros _; split; [|exact Hh]; split_and!; assumption|]. split_and!; try reflexivity. split_and!; assumption.
Qed.

Lemma post_unaccount es : forall b, okB b -> (forall e, In e es -> 0 <= e_state e <= 3) -> post (t_unaccount b es) (same b).
Proof.
  induction es as [|e es IH]; intros b Hb He; cbn [t_unaccount].
  - apply post_ret. split_and!; try reflexivity. apply Hb.
  - eapply post_bind; [apply post_bump; [exact Hb|apply He; left; reflexivity]|]. intros b1 H1.
    eapply post_weaken; [apply IH; [eapply same_okB; eassumption|intros; apply He; right; assumption]|].
    intros b2 (E1 & E2 & E3). destruct H1 as (D1 & D2 & D3). split_and!; [congruence|congruence|exact E3].
Qed.

Lemma post_move_down k : forall b dst d, okB b -> (dst + d + k <= bl_n b)%nat ->
  post (t_move_down b dst d k) (fun b' => okB b' /\ bl_n b' = bl_n b).
Proof.
  induction k as [|k IH]; intros b dst d Hb Hl; cbn [t_move_down]; [apply post_ret; auto|].
  destruct (holds_lookup _ _ (dst + d) (proj2 Hb)) as (e & He & Hok); [lia|].
  eapply post_bind; [eapply (post_pure e _ (eq e)); [unfold rd; rewrite He; reflexivity|reflexivity]|]. intros ? <-.
  assert (okB (set_slot b dst e)) as Hb1.
  { split; [apply geom_set, Hb|]. apply holds_set; [apply Hb|exact Hok]. }
  eapply post_bind; [eapply (post_put _ _ _ (eq _)); [destruct Hb as (_ & Hh & _); lia|exact Hb1|reflexivity]|]. intros ? <-.
  eapply post_weaken; [apply IH; [exact Hb1|cbn; lia]|]. intros b' H; exact H.
Qed.

Lemma post_delete b ib ie : okB b -> post (t_delete_range b ib ie)
  (fun b' => okB b' /\ (ib <= ie <= bl_n b)%nat /\ bl_n b' = (bl_n b - (ie - ib))%nat).
Proof.
  intros Hb. unfold t_delete_range. apply post_assert. intros E1. apply post_assert. intros E2. cbv zeta.
  apply post_assert. intros _. apply Nat.leb_le in E1, E2.
  eapply post_bind.
  { apply post_unaccount; [exact Hb|]. intros e He. apply elem_of_list_In, elem_of_list_lookup in He as (i & Hi).
    assert (i < ie - ib)%nat as Hlt.
    { apply lookup_lt_Some in Hi. rewrite take_length in Hi. lia. }
    rewrite lookup_take in Hi by exact Hlt. rewrite lookup_drop in Hi.
    destruct Hb as (_ & _ & Hh). apply Hh in Hi; [|lia]. apply Hi. }
  intros b1 Hs. assert (okB b1) as Hb1 by (eapply same_okB; eassumption). destruct Hs as (S1 & S2 & S3).
  eapply post_bind; [apply post_move_down; [exact Hb1|lia]|]. intros b2 (Hb2 & N2).
  assert (okB (set_n b2 (bl_n b2 - (ie - ib)))).
  { destruct Hb2 as (G & Hh). split; [exact G|]. cbn. apply (holds_le (bl_n b2)); [exact Hh|lia]. }
  apply post_store; [intros _; assumption|]. split_and!; [assumption|lia..|cbn; lia].
Qed.

Lemma post_move_up k : forall b src, okB b -> (src + k = bl_n b)%nat -> (bl_n b < length (bl_slots b))%nat ->
  forall j, (src + j <= bl_n b)%nat -> (bl_n b = src + j \/ exists e, bl_slots b !! bl_n b = Some e /\ okE e)%nat ->
  post (t_move_up b src j) (fun b' => okB b' /\ bl_n b' = bl_n b /\ length (bl_slots b') = length (bl_slots b) /\
    (bl_n b = src \/ exists e, bl_slots b' !! bl_n b = Some e /\ okE e)).
Proof.
  intros b src Hb Hk Hl j. revert b Hb Hk Hl. induction j as [|j IH]; intros b Hb Hk Hl Hj Hn; cbn [t_move_up].
  - apply post_ret. split_and!; auto. destruct Hn; [left; lia|auto].
  - destruct (holds_lookup _ _ (src + j) (proj2 Hb)) as (e & He & Hok); [lia|].
    eapply post_bind; [eapply (post_pure e _ (eq e)); [unfold rd; rewrite He; reflexivity|reflexivity]|]. intros ? <-.
    assert (okB (set_slot b (S (src + j)) e)) as Hb1.
    { split; [apply geom_set, Hb|]. apply holds_set; [apply Hb|exact Hok]. }
    eapply post_bind; [eapply (post_put _ _ _ (eq _)); [lia|exact Hb1|reflexivity]|]. intros ? <-.
    eapply post_weaken; [apply IH; [exact Hb1|exact Hk|cbn; rewrite insert_length; exact Hl|cbn; lia|]|].
    + right. cbn. destruct Hn as [Hn|(e' & He' & Hok')].
      * exists e. split; [|exact Hok]. replace (bl_n b) with (S (src + j)) by lia. apply list_lookup_insert. lia.
      * destruct (decide (S (src + j) = bl_n b)) as [->|Hne].
        -- exists e. split; [|exact Hok]. apply list_lookup_insert. exact Hl.
        -- exists e'. split; [|exact Hok']. rewrite list_lookup_insert_ne by exact Hne. exact He'.
    + cbn. rewrite insert_length. auto.
Qed.

Lemma post_insert b dest e : okB b -> okE e -> (dest <= bl_n b)%nat ->
  post (t_insert_before b dest e) (fun b' => okB b' /\ bl_n b' = S (bl_n b)).
Proof.
  intros Hb He Hd. unfold t_insert_before. rewrite (proj2 (Nat.leb_le _ _) Hd). cbv zeta.
  eapply (post_bind _ _ (fun b' => okB b' /\ bl_n b' = bl_n b /\ (bl_n b' < length (bl_slots b'))%nat)).
  { unfold t_require_space. eapply (post_bind _ _ (fun b' => okB b' /\ bl_n b' = bl_n b)).
    - destruct (_ =? _)%nat; [|apply post_ret; auto].
      assert (okB (grow b)).
      { destruct Hb as ((G1 & G2 & G3) & Hh & Hh2). unfold grow. split.
        - split_and!; cbn [bl_magic bl_n bl_cnt bl_slots]; auto. rewrite app_length, replicate_length. lia.
        - split; cbn [bl_magic bl_n bl_cnt bl_slots]; [rewrite app_length; lia|]. intros i e' Hi. rewrite lookup_app_l by lia. apply Hh2; exact Hi. }
      apply post_store; auto.
    - intros b1 (Hb1 & N1). apply post_assert. intros E. apply post_ret. split_and!; auto. apply Nat.ltb_lt in E. exact E. }
  intros b1 (Hb1 & N1 & L1).
  eapply post_bind; [apply (post_move_up (bl_n b - dest)); [exact Hb1|lia|exact L1|lia|left; lia]|].
  intros b2 (Hb2 & N2 & L2 & T2).
  assert (okB (set_slot b2 dest e)) as Hb3.
  { split; [apply geom_set, Hb2|]. apply holds_set; [apply Hb2|exact He]. }
  eapply post_bind; [eapply (post_put _ _ _ (eq _)); [lia|exact Hb3|reflexivity]|]. intros ? <-.
  assert (okB (set_n (set_slot b2 dest e) (S (bl_n (set_slot b2 dest e))))).
  { destruct Hb3 as (G & Hh & Hh2). split; [exact G|]. cbn in *. split; cbn; [rewrite insert_length; lia|].
    intros i e' Hi Hl. destruct (decide (i = bl_n b2)) as [->|Hne]; [|apply (Hh2 i); [lia|exact Hl]].
    destruct (decide (dest = bl_n b2)) as [->|Hne].
    - rewrite list_lookup_insert in Hl by lia. congruence.
    - rewrite list_lookup_insert_ne in Hl by exact Hne. destruct T2 as [T2|(e2 & E2 & Ok2)]; [lia|].
      rewrite N2, E2 in Hl. congruence. }
  apply post_store; [intros _; assumption|]. split; [assumption|]. cbn. lia.
Qed.

Lemma okE_sub e s' c' : okE e -> e_start e <= s' -> 0 <= c' -> s' + c' <= xend e -> okE (mkE s' c' (e_state e)).
Proof.
  intros ((B1 & B2 & B3 & B4) & H) H1 H2 H3. unfold xend in *. split.
  - unfold ebound, xend. cbn. lia.
  - cbn. intros x Hx. apply H. unfold xend in *. cbn in *. lia.
Qed.

Lemma post_split b i p : okB b -> (i < bl_n b)%nat ->
  post (t_split_entry b i p) (fun b' => okB b' /\ bl_n b' = S (bl_n b)).
Proof.
  intros Hb Hi. unfold t_split_entry. destruct (holds_lookup _ _ i (proj2 Hb) Hi) as (e & He & Hok).
  eapply post_bind; [eapply (post_pure e _ (eq e)); [unfold rd; rewrite He; reflexivity|reflexivity]|]. intros ? <-.
  apply post_assert. intros E1. apply post_assert. intros E2. cbv zeta.
  assert (Hbd := Hok). destruct Hbd as (Hbd & _). rewrite e_end_x in E2 |- * by exact Hbd.
  apply Z.leb_le in E1. apply Z.ltb_lt in E2. assert (ebound e) as (B1 & B2 & B3 & B4) by exact Hbd.
  unfold xend in *.
  rewrite (w16_id (p - e_start e)) by lia. rewrite (w16_id (e_start e + e_count e - p)) by lia.
  assert (Hok1 : okE (mkE (e_start e) (p - e_start e) (e_state e))) by (apply okE_sub; [exact Hok|unfold xend; lia..]).
  assert (Hok2 : okE (mkE p (e_start e + e_count e - p) (e_state e))) by (apply okE_sub; [exact Hok|unfold xend; lia..]).
  assert (okB (set_slot b i (mkE (e_start e) (p - e_start e) (e_state e)))) as Hb1.
  { split; [apply geom_set, Hb|]. apply holds_set; [apply Hb|exact Hok1]. }
  eapply post_bind; [eapply (post_wr _ _ _ _ (eq _)); [destruct Hb as (_ & ? & _); lia|auto|reflexivity]|]. intros ? <-.
  eapply post_bind; [apply post_insert; [exact Hb1|exact Hok2|cbn; lia]|]. intros b2 (Hb2 & N2). cbn in N2.
  destruct (holds_lookup _ _ i (proj2 Hb2)) as (l & Hl & _); [lia|].
  destruct (holds_lookup _ _ (S i) (proj2 Hb2)) as (r & Hr & _); [lia|].
  eapply post_bind; [eapply (post_pure l _ (eq l)); [unfold rd; rewrite Hl; reflexivity|reflexivity]|]. intros ? <-.
  eapply post_bind; [eapply (post_pure r _ (eq r)); [unfold rd; rewrite Hr; reflexivity|reflexivity]|]. intros ? <-.
  apply post_assert. intros _. apply post_assert. intros _. apply post_assert. intros _. apply post_ret. auto.
Qed.

Lemma post_try_merge b it : okB b -> (it < bl_n b)%nat ->
  post (t_try_merge b it) (fun '(f, i, b') => okB b' /\ (i < bl_n b')%nat /\ if f : bool then i = (it - 1)%nat else i = it).
Proof.
  intros Hb Hi. unfold t_try_merge. destruct (it =? 0)%nat eqn:E0; [apply post_ret; auto|]. apply Nat.eqb_neq in E0. cbv zeta.
  destruct (holds_lookup _ _ (it - 1) (proj2 Hb)) as (ep & Hp & Okp); [lia|].
  destruct (holds_lookup _ _ it (proj2 Hb) Hi) as (ei & Hei & Oki).
  eapply post_bind; [eapply (post_pure ep _ (eq ep)); [unfold rd; rewrite Hp; reflexivity|reflexivity]|]. intros ? <-.
  eapply post_bind; [eapply (post_pure ei _ (eq ei)); [unfold rd; rewrite Hei; reflexivity|reflexivity]|]. intros ? <-.
  assert (ebound ep) as Bp by apply Okp. assert (ebound ei) as Bi by apply Oki.
  destruct (negb (e_end ep =? e_start ei)) eqn:E1; [apply post_ret; auto|]. rewrite e_end_x in E1 by exact Bp.
  destruct (negb (e_state ep =? e_state ei)) eqn:E2; [apply post_ret; auto|].
  destruct (65535 <? _) eqn:E3; [apply post_ret; auto|].
  assert (okE (mkE (e_start ep) (e_count ep + e_count ei) (e_state ep))) as Okn.
  { split; [unfold ebound, xend in *; cbn; lia|]. unfold xend. cbn. intros x Hx.
    destruct (decide (x < xend ep)) as [Hx1|Hx1].
    - apply Okp. lia.
    - replace (e_state ep) with (e_state ei) by lia. apply Oki. unfold xend in *. lia. }
  assert (okB (set_slot b (it - 1) (mkE (e_start ep) (e_count ep + e_count ei) (e_state ep)))) as Hb1.
  { split; [apply geom_set, Hb|]. apply holds_set; [apply Hb|exact Okn]. }
  eapply post_bind; [eapply (post_wr _ _ _ _ (eq _)); [destruct Hb as (_ & ? & _); lia|auto|reflexivity]|]. intros ? <-.
  eapply post_bind; [apply post_bump; [exact Hb1|apply Bp]|]. intros b2 Hs. assert (okB b2) as Hb2 by (eapply same_okB; eassumption).
  destruct Hs as (_ & N2 & _). cbn in N2.
  eapply (post_bind _ _ (fun b' => okB b' /\ (it - 1 < bl_n b')%nat)).
  { unfold t_delete_entry. rewrite (proj2 (Nat.eqb_neq _ _)) by lia.
    eapply post_weaken; [apply post_delete; exact Hb2|]. intros b3 (Hb3 & _ & N3). split; [exact Hb3|lia]. }
  intros b3 (Hb3 & N3). apply post_ret. auto.
Qed.

Lemma post_merge_around b i : okB b -> (i < bl_n b)%nat -> post (t_merge_around b i) okB.
Proof.
  intros Hb Hi. unfold t_merge_around. cbv zeta.
  eapply (post_bind _ _ (fun '(j, b') => okB b' /\ (j < bl_n b')%nat)).
  { destruct (negb _) eqn:E; [|apply post_ret; auto].
    eapply post_bind; [apply post_try_merge; [exact Hb|lia]|]. intros [[f m] b1] (Hb1 & Hm & Hf). apply post_ret.
    destruct f; [auto|]. split; [exact Hb1|]. lia. }
  intros [j b1] (Hb1 & Hj). eapply post_bind; [apply post_try_merge; assumption|]. intros [[f m] b2] (Hb2 & _).
  apply post_ret. exact Hb2.
Qed.

(** one piece [s, s + c) to be marked [v] *)
Context (s c v : Z).
Context (Hok : ok_piece s c v).
Context (HP : forall x, s <= x < s + c -> v <> ABSENT -> P x v).

Lemma new_ok : v <> ABSENT -> okE (mkE s c (w8 v)) .
Proof using Hok HP.
  intros Hv. unfold ok_piece, ABSENT in *. rewrite w8_id by lia. split; [unfold ebound, xend; cbn; lia|].
  unfold xend. cbn. intros x Hx. apply HP; [lia|exact Hv].
Qed.

Lemma post_exact b so eo e : okB b -> (so < bl_n b)%nat -> okE e -> post (t_mark_exact b so eo e s c v) okB.
Proof using Hok HP.
  intros Hb Hso He. unfold t_mark_exact. destruct (v =? ABSENT) eqn:Ev.
  { eapply post_weaken; [apply post_delete; exact Hb|]. intros b' H; apply H. }
  apply Z.eqb_neq in Ev.
  eapply post_bind; [apply post_bump; [exact Hb|apply He]|]. intros b1 Hs.
  assert (okB b1) as Hb1 by (eapply same_okB; eassumption). destruct Hs as (S1 & N1 & _).
  assert (okB (set_slot b1 so (mkE s c (w8 v)))) as Hb2.
  { split; [apply geom_set, Hb1|]. apply holds_set; [apply Hb1|apply new_ok; exact Ev]. }
  eapply post_bind; [eapply (post_put _ _ _ (eq _)); [destruct Hb1 as (_ & ? & _); lia|exact Hb2|reflexivity]|]. intros ? <-.
  eapply post_bind; [apply post_bump; [exact Hb2|unfold ok_piece, ABSENT in *; lia]|]. intros b3 Hs.
  assert (okB b3) as Hb3 by (eapply same_okB; eassumption). destruct Hs as (S3 & N3 & _). cbn in N3.
  eapply post_bind; [apply post_delete; exact Hb3|]. intros b4 (Hb4 & Hr & N4). apply post_merge_around; [exact Hb4|lia].
Qed.

Lemma post_trim_start b so e : okB b -> (so < bl_n b)%nat -> bl_slots b !! so = Some e -> contains e s = true ->
  post (t_mark_trim_start b so e s) (fun b' => okB b' /\ bl_n b' = bl_n b /\
    exists e', bl_slots b' = <[so := e']> (bl_slots b)).
Proof using Hok HP.
  intros Hb Hso He Hc. assert (okE e) as Oke by (destruct Hb as (_ & _ & H); apply (H so); assumption).
  assert (ebound e) as Be by apply Oke. rewrite contains_x in Hc by exact Be. unfold t_mark_trim_start. cbv zeta.
  unfold ebound, xend, ok_piece in *.
  rewrite (w16_id (s - e_start e)) by lia.
  assert (okE (mkE (e_start e) (s - e_start e) (e_state e))) as Okn by (apply okE_sub; [exact Oke|unfold xend; lia..]).
  assert (okB (set_slot b so (mkE (e_start e) (s - e_start e) (e_state e)))) as Hb1.
  { split; [apply geom_set, Hb|]. apply holds_set; [apply Hb|exact Okn]. }
  eapply post_bind; [eapply (post_wr _ _ _ _ (eq _)); [destruct Hb as (_ & ? & _); lia|auto|reflexivity]|]. intros ? <-.
  apply post_assert. intros _. apply post_assert. intros _. apply post_assert. intros _.
  eapply post_weaken; [apply post_bump; [exact Hb1|cbn; lia]|]. intros b' Hs.
  split; [eapply same_okB; eassumption|]. destruct Hs as (S1 & N1 & _). split; [exact N1|]. eexists. exact S1.
Qed.

Lemma post_trim_end b eo e : okB b -> (eo < bl_n b)%nat -> bl_slots b !! eo = Some e -> contains e (w64 (w64 (s + c) - 1)) = true ->
  post (t_mark_trim_end b eo (w64 (s + c))) (fun b' => okB b' /\ bl_n b' = bl_n b).
Proof using Hok HP.
  intros Hb Heo He Hc. assert (okE e) as Oke by (destruct Hb as (_ & _ & H); apply (H eo); assumption).
  assert (ebound e) as Be by apply Oke. rewrite contains_x in Hc by exact Be. unfold t_mark_trim_end.
  unfold ok_piece in *. rewrite (w64_id (s + c)) in * by lia. rewrite (w64_id (s + c - 1)) in Hc by lia.
  eapply post_bind; [eapply (post_pure e _ (eq e)); [unfold rd; rewrite He; reflexivity|reflexivity]|]. intros ? <-. cbv zeta.
  rewrite e_end_x by exact Be. unfold ebound, xend in *.
  rewrite (w16_id (_ - (s + c))) by lia.
  assert (okE (mkE (s + c) (e_start e + e_count e - (s + c)) (e_state e))) as Okn by (apply okE_sub; [exact Oke|unfold xend; lia..]).
  assert (okB (set_slot b eo (mkE (s + c) (e_start e + e_count e - (s + c)) (e_state e)))) as Hb1.
  { split; [apply geom_set, Hb|]. apply holds_set; [apply Hb|exact Okn]. }
  assert (eo < length (bl_slots b))%nat by (destruct Hb as (_ & ? & _); lia).
  eapply post_bind; [eapply (post_wr _ _ _ _ (eq _)); [lia|discriminate|reflexivity]|]. intros ? <-.
  eapply post_bind.
  { eapply (post_wr _ _ _ _ (eq _)); [cbn; rewrite insert_length; lia|rewrite set_set; auto|rewrite set_set; reflexivity]. }
  intros ? <-. apply post_assert. intros _. apply post_assert. intros _.
  eapply post_weaken; [apply post_bump; [exact Hb1|cbn; lia]|]. intros b' Hs.
  split; [eapply same_okB; eassumption|]. apply Hs.
Qed.

Lemma post_tail b so eo ec : okB b -> (so <= bl_n b)%nat -> (eo <= bl_n b)%nat ->
  (ec = true -> exists e, (eo < bl_n b)%nat /\ bl_slots b !! eo = Some e /\ contains e (w64 (w64 (s + c) - 1)) = true) ->
  post (t_mark_tail b so eo ec s c v) okB.
Proof using Hok HP.
  intros Hb Hso Heo Hec. unfold t_mark_tail. cbv zeta.
  eapply (post_bind _ _ (fun b' => okB b' /\ bl_n b' = bl_n b)).
  { destruct ec; [|apply post_ret; auto]. destruct (Hec eq_refl) as (e & H1 & H2 & H3). eapply post_trim_end; eassumption. }
  intros b1 (Hb1 & N1).
  eapply post_bind; [apply post_delete; exact Hb1|]. intros b2 (Hb2 & Hr & N2).
  destruct (v =? ABSENT) eqn:Ev; [apply post_ret; exact Hb2|]. apply Z.eqb_neq in Ev.
  eapply post_bind; [apply post_insert; [exact Hb2|apply new_ok; exact Ev|lia]|]. intros b3 (Hb3 & N3).
  match goal with |- context [rd b3 ?d] => destruct (holds_lookup _ _ d (proj2 Hb3)) as (ins & Hins & Oki); [lia|] end.
  eapply post_bind; [eapply (post_pure ins _ (eq ins)); [unfold rd; rewrite Hins; reflexivity|reflexivity]|]. intros ? <-.
  eapply post_bind; [apply post_bump; [exact Hb3|apply Oki]|]. intros b4 Hs.
  assert (okB b4) as Hb4 by (eapply same_okB; eassumption). destruct Hs as (_ & N4 & _).
  apply post_merge_around; [exact Hb4|lia].
Qed.

Lemma post_internal b : okB b -> post (t_mark_internal b s c v) okB.
Proof using Hok HP.
  intros Hb. assert (fits b) as Hf by (destruct Hb as (_ & ? & _); assumption).
  unfold t_mark_internal. cbv zeta.
  destruct (find_total b s c Hf) as (so & eo & Hfo & Hso & Heo). rewrite Hfo.
  eapply post_bind; [eapply (post_pure (so, eo) _ (eq (so, eo))); reflexivity|]. intros ? <-.
  eapply (post_bind _ _ (fun '(b', eo') => okB b' /\ (so <= bl_n b')%nat /\ (eo' <= bl_n b')%nat /\
    (so <> eo' \/ so = bl_n b'))).
  { destruct (negb (so =? bl_n b)%nat && (so =? eo)%nat) eqn:E.
    - eapply post_bind; [apply post_split; [exact Hb|lia]|]. intros b1 (Hb1 & N1). apply post_ret. split_and!; [exact Hb1|lia..].
    - apply post_ret. split_and!; auto. lia. }
  intros [b1 eo1] (Hb1 & Hso1 & Heo1 & Hne).
  assert (Hsc : forall i y, (i <= bl_n b1)%nat -> exists r,
    (if negb (i =? bl_n b1)%nat then dlet e := rd b1 i in Done (contains e y) else Done false) = Done r /\
    (r = true -> exists e, (i < bl_n b1)%nat /\ bl_slots b1 !! i = Some e /\ contains e y = true)).
  { intros i y Hi. destruct (negb (i =? bl_n b1)%nat) eqn:E; [|exists false; split; [reflexivity|discriminate]].
    destruct (holds_lookup _ _ i (proj2 Hb1)) as (e & He & _); [lia|]. exists (contains e y). unfold rd. rewrite He.
    split; [reflexivity|]. intros Hc. exists e. split; [lia|auto]. }
  destruct (Hsc so s Hso1) as (sc & -> & Hscs).
  destruct (Hsc eo1 (w64 (w64 (s + c) - 1)) Heo1) as (ec & -> & Hecs).
  eapply post_bind; [eapply (post_pure sc _ (eq sc)); reflexivity|]. intros ? <-.
  eapply post_bind; [eapply (post_pure ec _ (eq ec)); reflexivity|]. intros ? <-.
  destruct sc; [|apply post_tail; assumption].
  destruct (Hscs eq_refl) as (e & Hlt & He & Hc).
  eapply post_bind; [eapply (post_pure e _ (eq e)); [unfold rd; rewrite He; reflexivity|reflexivity]|]. intros ? <-.
  destruct (_ && _).
  - apply post_exact; [exact Hb1|exact Hlt|]. destruct Hb1 as (_ & _ & H). apply (H so); assumption.
  - eapply post_bind; [eapply post_trim_start; eassumption|]. intros b2 (Hb2 & N2 & e' & S2).
    apply post_tail; [exact Hb2|lia|lia|]. intros ->. destruct (Hecs eq_refl) as (e2 & Hl2 & He2 & Hc2).
    exists e2. split; [lia|]. split; [|exact Hc2]. rewrite S2. rewrite list_lookup_insert_ne by lia. exact He2.
Qed.
End Points.

(** ** Whole calls *)
Lemma post_mark (P : Z -> Z -> Prop) b r : valid_req r ->
  (forall x, covers r x = true -> r_state r <> ABSENT -> P x (r_state r)) ->
  okB P b -> post P (calls b r) (okB P).
Proof.
  intros (V1 & V2 & V3 & V4) HP Hb. unfold calls, t_mark.
  set (s := r_start r) in *. set (c := r_count r) in *. set (v := r_state r) in *.
  assert (HP' : forall x, s <= x < s + c -> v <> ABSENT -> P x v).
  { intros x Hx. apply HP. unfold covers. fold s c. lia. }
  assert (HI : forall n, post P (N.iter n (t_mark_body v) (tret (b, s, c)))
    (fun '(b1, s1, c1) => okB P b1 /\ s <= s1 /\ s1 + c1 = s + c /\ 0 <= c1 /\
       (c1 <= LIMIT \/ c1 <= c - LIMIT * Z.of_N n))).
  { intros n. induction n as [|n IH] using N.peano_ind.
    - apply post_ret. split_and!; try lia. exact Hb.
    - rewrite N.iter_succ. unfold t_mark_body at 1. eapply post_bind; [exact IH|].
      intros [[b1 s1] c1] (Hb1 & I1 & I2 & I3 & I4). unfold LIMIT in *. destruct (65535 <? c1) eqn:E.
      + eapply post_bind.
        { apply post_internal; [unfold ok_piece; lia| |exact Hb1]. intros x Hx. apply HP'. lia. }
        intros b2 Hb2. apply post_ret. rewrite !w64_id by lia. split_and!; try lia. exact Hb2.
      + apply post_ret. split_and!; try lia. exact Hb1. }
  eapply post_bind; [apply HI|]. intros [[b1 s1] c1] (Hb1 & I1 & I2 & I3 & I4).
  destruct (0 <? c1) eqn:E; [|apply post_ret; exact Hb1].
  assert (c1 <= 65535). { unfold LIMIT in *. destruct I4 as [I4|I4]; [lia|]. rewrite Z2N.id in I4 by (apply Z.div_pos; lia). lia. }
  apply post_internal; [unfold ok_piece; lia| |exact Hb1]. intros x Hx. apply HP'. lia.
Qed.

Lemma killed_ok (P : Z -> Z -> Prop) b r b' : valid_req r ->
  (forall x, covers r x = true -> r_state r <> ABSENT -> P x (r_state r)) ->
  okB P b -> killed false b r b' -> okB P b'.
Proof. intros V HP Hb [[_ ->]|H]; [exact Hb|]. eapply (post_mark P b r V HP Hb). exact H. Qed.

Lemma mark_okB (P : Z -> Z -> Prop) b r b' : valid_req r ->
  (forall x, covers r x = true -> r_state r <> ABSENT -> P x (r_state r)) ->
  okB P b -> mark b (r_start r) (r_count r) (r_state r) = Done b' -> okB P b'.
Proof.
  intros V HP Hb H. assert (fits b) as Hf by (destruct Hb as (_ & ? & _); assumption).
  rewrite <- er_mark in H by exact Hf. destruct (post_mark P b r V HP Hb) as (_ & Hq). unfold calls in Hq.
  destruct (snd (t_mark _ _ _ _)); cbn in H; try discriminate. injection H as <-. exact Hq.
Qed.

Lemma okB_state P b x : okB P b -> state_of b x <> ABSENT -> P x (state_of b x).
Proof.
  intros (_ & Hl & H) Hx. unfold state_of in *.
  assert (HL : forall e, In e (live b) -> okE P e).
  { intros e He. apply elem_of_list_In, elem_of_list_lookup in He as (i & Hi). unfold live in Hi.
    assert (i < bl_n b)%nat. { apply lookup_lt_Some in Hi. rewrite take_length in Hi. lia. }
    rewrite lookup_take in Hi by assumption. apply (H i); assumption. }
  induction (live b) as [|e L IH]; cbn [state_in] in *; [congruence|].
  assert (okE P e) as (Be & Pe) by (apply HL; left; reflexivity).
  assert (IHL : state_in L x <> ABSENT -> P x (state_in L x)) by (intros; apply IH; [assumption|intros; apply HL; right; assumption]).
  rewrite w64_id in * by (unfold ebound, xend in Be; lia).
  destruct (e_start e <=? x) eqn:E1; [|auto]. destruct (x <? e_start e + e_count e) eqn:E2; [|auto].
  apply Pe. unfold xend. lia.
Qed.

Lemma okB_open P b : okB P b -> open_file (Some b) = Done b.
Proof.
  intros ((G1 & G2 & _) & _). cbn [open_file]. rewrite G1, Z.eqb_refl. unfold file_size.
  replace ((512 + 16 * Z.of_nat (length (bl_slots b))) mod 512 =? 0) with true by lia. reflexivity.
Qed.

Lemma okB_fresh P : okB P bl_fresh.
Proof. split; [split_and!; reflexivity|]. split; cbn [bl_n bl_fresh]; lia. Qed.

Lemma okB_weaken (P Q : Z -> Z -> Prop) b : (forall x v, P x v -> Q x v) -> okB P b -> okB Q b.
Proof.
  intros HPQ (G & Hl & H). split; [exact G|]. split; [exact Hl|]. intros i e Hi He.
  destruct (H i e Hi He) as (Be & Pe). split; [exact Be|]. auto.
Qed.

Lemma bump_l_len c s d c' : bump_l c s d = Done c' -> length c' = length c.
Proof.
  unfold bump_l. destruct (0 <=? s); [|discriminate]. destruct (c !! _); [|discriminate]. intros [= <-]. apply insert_length.
Qed.

Lemma okB_fsck P b b' : okB P b -> fsck b = Done b' -> okB P b' /\ forall x, state_of b' x = state_of b x.
Proof.
  intros (G & Hl & H). unfold fsck. destruct (fsck_loop _ _ _ _); cbn [obind]; try discriminate.
  destruct (bool_decide _); [|discriminate]. unfold shrink. cbv zeta.
  destruct (_ <=? 1); [intros [= <-]; split; [split; [exact G|split; assumption]|reflexivity]|].
  destruct (_ =? _); [intros [= <-]; split; [split; [exact G|split; assumption]|reflexivity]|].
  set (req := (512 + Z.of_nat (bl_n b) * 16 + 4096 - 1) / 4096).
  unfold assert_. destruct (_ <? file_size b) eqn:E1; [|discriminate]. destruct (Z.of_nat (bl_n b) <=? _) eqn:E2; [|discriminate].
  intros [= <-]. set (cap := Z.to_nat ((req * 4096 - 512) / 16)).
  unfold file_size in E1. assert (0 < req) by (unfold req; lia).
  assert (bl_n b <= cap)%nat by (unfold cap; lia).
  assert (Z.of_nat cap = req * 256 - 32) by (unfold cap; lia).
  assert (cap <= length (bl_slots b))%nat by lia.
  destruct G as (G1 & G2 & G3).
  split.
  - split; [split_and!; cbn [bl_magic bl_n bl_cnt bl_slots]; [exact G1| |exact G3]; rewrite take_length; lia|].
    split; cbn [bl_magic bl_n bl_cnt bl_slots]; [rewrite take_length; lia|].
    intros i e Hi. rewrite lookup_take by lia. apply H; exact Hi.
  - intros x. unfold state_of, live. cbn [bl_n bl_slots]. rewrite take_take. replace (bl_n b `min` cap)%nat with (bl_n b) by lia. reflexivity.
Qed.

Lemma disjoint_ok b : DInv b -> okB (fun x v => v = state_of b x) b.
Proof.
  intros ((Hr & HB & _) & HD). destruct Hr as (_ & Hn & Hc & Ho1 & Ho2). split.
  - split_and!; [exact Ho1|exact Ho2|]. rewrite Hc. reflexivity.
  - split; [exact Hn|]. intros i e Hi He.
    assert (In e (live b)) as Hin.
    { apply elem_of_list_In, elem_of_list_lookup. exists i. unfold live. rewrite lookup_take by exact Hi. exact He. }
    split; [rewrite Forall_forall in HB; apply HB, elem_of_list_In, Hin|].
    intros x Hx. symmetry. apply state_in_hit; auto.
Qed.
