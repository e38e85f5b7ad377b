(** What lies before the range of a call of mark() is kept at every single store of the call,
    even between the two stores into one entry.  Nothing is modelled here. *)
From Coq Require Import Sorted.
From Verif Require Import Prelude Blocklist BlocklistSpec BlocklistProofs BlocklistSem BlocklistMain BlocklistMore BlocklistThm BlocklistFinal BlocklistStores BlocklistCrash.
Ltac Zify.zify_post_hook ::= Z.div_mod_to_equations.

Notation okA := (okB (fun _ _ => True)).
Notation postA := (post (fun _ _ => True)).

Section Kept.
(** blocks before [s] are described by the first [m] entries [E0] *)
Context (s : Z) (m : nat) (E0 : list entry).
Context (HE0 : forall i e, E0 !! i = Some e -> e_start e < s).

(** what slot [i < m] may hold *)
Definition pre (i : nat) (e : entry) : Prop :=
  exists e0, E0 !! i = Some e0 /\ e_start e = e_start e0 /\ e_state e = e_state e0 /\ ebound e /\
    Z.min (xend e) s = Z.min (xend e0) s /\ ((S i < m)%nat -> xend e <= s).
Definition slot_ok (i : nat) (e : entry) : Prop := ((i < m)%nat -> pre i e) /\ ((m <= i)%nat -> s <= e_start e).
Definition K (b : bl) : Prop :=
  (m <= bl_n b <= length (bl_slots b))%nat /\ forall i e, (i < bl_n b)%nat -> bl_slots b !! i = Some e -> slot_ok i e.

Definition kpost {A} (t : tr A) (Q : A -> Prop) : Prop :=
  (forall f b, In (f, b) (fst t) -> K b) /\ match snd t with TDone a => Q a | _ => True end.

Lemma k_ret {A} (a : A) (Q : A -> Prop) : Q a -> kpost (tret a) Q.
Proof. intros H. split; [intros f b []|exact H]. Qed.
Lemma k_bind {A B} (t : tr A) (k : A -> tr B) (Q : A -> Prop) (R : B -> Prop) :
  kpost t Q -> (forall a, Q a -> kpost (k a) R) -> kpost (tbind t k) R.
Proof.
  intros [H1 H2] Hk. unfold tbind. destruct (snd t) as [a| |]; cbn [fst snd]; [|split; auto..].
  destruct (Hk a H2) as [K1 K2]. split; [|exact K2]. intros f b Hb. cbn in Hb. apply in_app_iff in Hb as [Hb|Hb]; eauto.
Qed.
Lemma k_assert {A} c (k : tr A) (Q : A -> Prop) : (c = true -> kpost k Q) -> kpost (tassert c k) Q.
Proof. intros H. destruct c; [apply H; reflexivity|]. split; [intros f b []|exact I]. Qed.
Lemma k_pure {A} o (Q : A -> Prop) : (forall a, o = Done a -> Q a) -> kpost (tpure o) Q.
Proof. intros H. split; [intros f b []|]. unfold tpure. cbn. destruct o; auto. Qed.
Lemma k_store t b (Q : bl -> Prop) : K b -> Q b -> kpost (tstore t b) Q.
Proof. intros H HQ. split; [|exact HQ]. intros f b' [[= -> ->]|[]]. exact H. Qed.
Lemma k_weaken {A} (t : tr A) (Q R : A -> Prop) : kpost t Q -> (forall a, Q a -> R a) -> kpost t R.
Proof. intros [H1 H2] H. split; [exact H1|]. destruct (snd t); auto. Qed.
Lemma k_conj {A} (t : tr A) (Q R : A -> Prop) : kpost t Q -> postA t R -> kpost t (fun a => Q a /\ R a).
Proof. intros [H1 H2] [_ H3]. split; [exact H1|]. destruct (snd t); auto. Qed.

Lemma K_get b i e : K b -> (i < bl_n b)%nat -> bl_slots b !! i = Some e -> slot_ok i e.
Proof. intros [_ H]. apply H. Qed.
Lemma K_set b i e : K b -> slot_ok i e -> K (set_slot b i e).
Proof.
  intros [H1 H2] He. split; [cbn; rewrite insert_length; exact H1|]. intros j e' Hj. cbn in *.
  destruct (decide (i = j)) as [->|Hn]; [rewrite list_lookup_insert by lia; intros [= <-]; exact He|].
  rewrite list_lookup_insert_ne by exact Hn. apply H2; exact Hj.
Qed.
Lemma after_ok i e : (m <= i)%nat -> s <= e_start e -> slot_ok i e.
Proof. intros H1 H2. split; [lia|auto]. Qed.
Lemma k_wr t b i e : K b -> slot_ok i e -> kpost (t_wr t b i e) (fun b' => b' = set_slot b i e).
Proof.
  intros H1 H2. unfold t_wr. destruct (_ <? _)%nat; [|split; [intros f b' []|exact I]]. apply k_store; [apply K_set; assumption|reflexivity].
Qed.
Lemma k_put b i e : K b -> (m <= i)%nat -> s <= e_start e -> kpost (t_put b i e) (fun b' => b' = set_slot b i e).
Proof.
  intros H1 H2 H3. unfold t_put. eapply (k_bind _ _ (fun _ => True)); [apply k_pure; auto|]. intros o _.
  eapply k_bind; [apply k_wr; [exact H1|apply after_ok; assumption]|]. intros ? ->.
  eapply k_weaken; [apply k_wr; [apply K_set; [exact H1|]|]; apply after_ok; assumption|]. intros ? ->. apply set_set.
Qed.
Definition sm (b b' : bl) : Prop := bl_slots b' = bl_slots b /\ bl_n b' = bl_n b.
Lemma sm_K b b' : K b -> sm b b' -> K b'.
Proof. intros [H1 H2] [E1 E2]. unfold K. rewrite E1, E2. auto. Qed.
Lemma k_bump b st d : K b -> kpost (t_bump b st d) (sm b).
Proof.
  intros Hb. unfold t_bump. eapply (k_bind _ _ (fun _ => True)); [apply k_pure; auto|]. intros c _.
  apply k_store; [exact Hb|split; reflexivity].
Qed.
Lemma k_unaccount es : forall b, K b -> kpost (t_unaccount b es) (sm b).
Proof.
  induction es as [|e es IH]; intros b Hb; cbn [t_unaccount]; [apply k_ret; split; reflexivity|].
  eapply k_bind; [apply k_bump; exact Hb|]. intros b1 H1. eapply k_weaken; [apply IH; eapply sm_K; eassumption|].
  intros b2 [E1 E2]. destruct H1 as [D1 D2]. split; congruence.
Qed.
Lemma k_move_down k : forall b dst d, K b -> (m <= dst)%nat -> (dst + d + k <= bl_n b)%nat ->
  kpost (t_move_down b dst d k) (fun b' => K b' /\ bl_n b' = bl_n b).
Proof.
  induction k as [|k IH]; intros b dst d Hb Hd Hl; cbn [t_move_down]; [apply k_ret; auto|].
  eapply (k_bind _ _ (fun e => s <= e_start e)).
  { apply k_pure. intros e He. unfold rd in He. destruct (bl_slots b !! (dst + d)%nat) as [e'|] eqn:E; [|discriminate He]. injection He as <-.
    apply (K_get b _ _ Hb) in E; [|lia]. apply E. lia. }
  intros e He. eapply k_bind; [apply k_put; assumption|]. intros ? ->.
  assert (K (set_slot b dst e)) as Hb1 by (apply K_set; [exact Hb|apply after_ok; assumption]).
  eapply k_weaken; [apply IH; [exact Hb1|lia|cbn; lia]|]. intros b' H; exact H.
Qed.
Lemma k_delete b ib ie : K b -> (m <= ib)%nat -> kpost (t_delete_range b ib ie) K.
Proof.
  intros Hb Hi. unfold t_delete_range. apply k_assert. intros E1. apply k_assert. intros E2. cbv zeta. apply k_assert. intros _.
  apply Nat.leb_le in E1, E2. eapply k_bind; [apply k_unaccount; exact Hb|]. intros b1 Hs. assert (K b1) as Hb1 by (eapply sm_K; eassumption).
  destruct Hs as [S1 S2]. eapply k_bind; [apply k_move_down; [exact Hb1|exact Hi|lia]|]. intros b2 (Hb2 & N2).
  assert (K (set_n b2 (bl_n b2 - (ie - ib)))).
  { destruct Hb2 as [G Hh]. split; [cbn; lia|]. cbn. intros i e Hlt. apply Hh. lia. }
  apply k_store; assumption.
Qed.
Lemma k_move_up j : forall b src, K b -> (m <= src)%nat -> (src + j <= bl_n b)%nat -> (bl_n b < length (bl_slots b))%nat ->
  (bl_n b = src + j \/ exists e, bl_slots b !! bl_n b = Some e /\ (s <= e_start e)%Z)%nat ->
  kpost (t_move_up b src j) (fun b' => K b' /\ bl_n b' = bl_n b /\ length (bl_slots b') = length (bl_slots b) /\
    (bl_n b = src \/ exists e, bl_slots b' !! bl_n b = Some e /\ s <= e_start e)).
Proof.
  induction j as [|j IH]; intros b src Hb Hsrc Hj Hl Hn; cbn [t_move_up].
  - apply k_ret. split_and!; auto. destruct Hn; [left; lia|auto].
  - eapply (k_bind _ _ (fun e => s <= e_start e)).
    { apply k_pure. intros e He. unfold rd in He. destruct (bl_slots b !! (src + j)%nat) as [e'|] eqn:E; [|discriminate He]. injection He as <-.
      apply (K_get b _ _ Hb) in E; [|lia]. apply E. lia. }
    intros e He. eapply k_bind; [apply k_put; [exact Hb|lia|exact He]|]. intros ? ->.
    assert (K (set_slot b (S (src + j)) e)) as Hb1 by (apply K_set; [exact Hb|apply after_ok; [lia|exact He]]).
    eapply k_weaken; [apply IH; [exact Hb1|exact Hsrc|cbn; lia|cbn; rewrite insert_length; exact Hl|]|].
    + right. cbn. destruct (decide (S (src + j) = bl_n b)) as [->|Hne]; [exists e; split; [apply list_lookup_insert; exact Hl|exact He]|].
      destruct Hn as [Hn|(e' & He' & Hok')]; [lia|]. exists e'. split; [|exact Hok']. rewrite list_lookup_insert_ne by exact Hne. exact He'.
    + cbn. rewrite insert_length. auto.
Qed.
Lemma k_insert b dest e : K b -> (m <= dest)%nat -> s <= e_start e -> kpost (t_insert_before b dest e) K.
Proof.
  intros Hb Hd He. unfold t_insert_before. destruct (Nat.leb_spec dest (bl_n b)) as [Hle|]; [|split; [intros f b' []|exact I]]. cbv zeta.
  eapply (k_bind _ _ (fun b' => K b' /\ bl_n b' = bl_n b /\ (bl_n b' < length (bl_slots b'))%nat)).
  { unfold t_require_space. eapply (k_bind _ _ (fun b' => K b' /\ bl_n b' = bl_n b)).
    - destruct (_ =? _)%nat; [|apply k_ret; auto].
      assert (K (grow b)).
      { destruct Hb as [Hh Hh2]. unfold grow. split; cbn [bl_magic bl_n bl_cnt bl_slots]; [rewrite app_length; lia|].
        intros i e' Hi. rewrite lookup_app_l by lia. apply Hh2; exact Hi. }
      apply k_store; auto.
    - intros b1 (Hb1 & N1). apply k_assert. intros E. apply k_ret. split_and!; auto. apply Nat.ltb_lt in E. exact E. }
  intros b1 (Hb1 & N1 & L1).
  eapply k_bind; [apply k_move_up; [exact Hb1|exact Hd|lia|exact L1|left; lia]|].
  intros b2 (Hb2 & N2 & L2 & T2). eapply k_bind; [apply k_put; assumption|]. intros ? ->.
  assert (K (set_slot b2 dest e)) as Hb3 by (apply K_set; [exact Hb2|apply after_ok; assumption]).
  assert (K (set_n (set_slot b2 dest e) (S (bl_n (set_slot b2 dest e))))); [|apply k_store; assumption].
  destruct Hb3 as [G Hh]. cbn in *. rewrite insert_length in *. split; cbn; [rewrite insert_length; lia|].
  intros i e' Hi Hl. destruct (decide (i = bl_n b2)) as [->|Hne]; [|apply Hh; [lia|exact Hl]].
  apply after_ok; [lia|]. destruct (decide (dest = bl_n b2)) as [->|Hne].
  - rewrite list_lookup_insert in Hl by lia. injection Hl as <-. exact He.
  - rewrite list_lookup_insert_ne in Hl by exact Hne. destruct T2 as [T2|(e2 & E2 & Ok2)]; [lia|]. rewrite N2, E2 in Hl. injection Hl as <-. exact Ok2.
Qed.

(** shortening or lengthening the last entry before [s], but not to less than [s] *)
Lemma pre_cut i e c' : pre i e -> (m <= S i)%nat -> 0 <= c' <= 65535 -> e_start e + c' < 2 ^ 64 -> s <= xend e -> s <= e_start e + c' ->
  pre i (mkE (e_start e) c' (e_state e)).
Proof.
  intros (e0 & H1 & H2 & H3 & H4 & H5 & H6) Hi Hc Hov Hx Hn. exists e0. cbn. split; [exact H1|]. split; [exact H2|]. split; [exact H3|].
  unfold ebound, xend in *; cbn in *. split; [lia|]. split; [lia|lia].
Qed.
Lemma okA_ebound b i e : okA b -> (i < bl_n b)%nat -> bl_slots b !! i = Some e -> ebound e.
Proof. intros (_ & _ & H) Hi He. apply (H i e Hi He). Qed.
Lemma k_rd b i (Q : entry -> Prop) : (forall e, bl_slots b !! i = Some e -> Q e) -> kpost (tpure (rd b i)) Q.
Proof. intros H. apply k_pure. intros e He. unfold rd in He. destruct (bl_slots b !! i); [injection He as <-; auto|discriminate He]. Qed.

Lemma cut_ok b i e p : K b -> okA b -> (m <= S i)%nat -> (i < bl_n b)%nat -> bl_slots b !! i = Some e -> s <= p -> e_start e <= p < xend e ->
  slot_ok i (mkE (e_start e) (w16 (p - e_start e)) (e_state e)).
Proof.
  intros Hb Ha Hi Hn He Hp Hc. pose proof (okA_ebound b i e Ha Hn He) as Be. pose proof (K_get b i e Hb Hn He) as [S1 S2].
  unfold ebound, xend in *. rewrite w16_id by lia. split; cbn; [|auto]. intros Him. apply pre_cut; auto; unfold xend; lia.
Qed.
Lemma k_split b i p : K b -> okA b -> (m <= S i)%nat -> (i < bl_n b)%nat -> s <= p -> kpost (t_split_entry b i p) K.
Proof.
  intros Hb Ha Hi Hn Hp. unfold t_split_entry. eapply k_bind; [apply k_rd; intros e He; exact He|]. intros e He.
  apply k_assert. intros E1. apply k_assert. intros E2. cbv zeta. pose proof (okA_ebound b i e Ha Hn He) as Be.
  rewrite e_end_x in E2 |- * by exact Be.
  assert (Hs : slot_ok i (mkE (e_start e) (w16 (p - e_start e)) (e_state e))) by (eapply cut_ok; eauto; lia).
  eapply k_bind; [apply k_wr; [exact Hb|exact Hs]|]. intros ? ->.
  eapply k_bind; [apply k_insert; [apply K_set; [exact Hb|exact Hs]|exact Hi|exact Hp]|]. intros b2 Hb2.
  eapply (k_bind _ _ (fun _ => True)); [apply k_pure; auto|]. intros l _. eapply (k_bind _ _ (fun _ => True)); [apply k_pure; auto|]. intros r _.
  apply k_assert. intros _. apply k_assert. intros _. apply k_assert. intros _. apply k_ret. exact Hb2.
Qed.
Lemma k_try_merge b it : K b -> okA b -> (m <= it)%nat -> (it < bl_n b)%nat -> kpost (t_try_merge b it) (fun '(_, _, b') => K b').
Proof.
  intros Hb Ha Hm Hi. unfold t_try_merge. destruct (it =? 0)%nat eqn:Ez; [apply k_ret; exact Hb|]. apply Nat.eqb_neq in Ez. cbv zeta.
  eapply k_bind; [apply k_rd; intros e He; exact He|]. intros ep Hp. eapply k_bind; [apply k_rd; intros e He; exact He|]. intros ei Hei.
  assert (ebound ep) as Bp by (eapply (okA_ebound b); [exact Ha| |exact Hp]; lia). assert (ebound ei) as Bi by (eapply (okA_ebound b); eauto).
  destruct (negb (e_end ep =? e_start ei)) eqn:E1; [apply k_ret; exact Hb|]. rewrite e_end_x in E1 by exact Bp.
  destruct (negb (e_state ep =? e_state ei)) eqn:E2; [apply k_ret; exact Hb|]. destruct (65535 <? _) eqn:E3; [apply k_ret; exact Hb|].
  assert (slot_ok (it - 1) (mkE (e_start ep) (e_count ep + e_count ei) (e_state ep))) as Hs.
  { pose proof (K_get b _ _ Hb Hi Hei) as [_ Hse]. specialize (Hse Hm). pose proof (K_get b (it - 1) _ Hb ltac:(lia) Hp) as [S1 S2].
    split; cbn; [|auto]. intros Hl. unfold ebound, xend in *. apply pre_cut; [auto|lia..|unfold xend; lia|lia]. }
  eapply k_bind; [apply k_wr; [exact Hb|exact Hs]|]. intros ? ->. assert (K (set_slot b (it - 1) (mkE (e_start ep) (e_count ep + e_count ei) (e_state ep)))) as Hb1 by (apply K_set; assumption).
  eapply k_bind; [apply k_bump; exact Hb1|]. intros b2 Hs2. assert (K b2) as Hb2 by (eapply sm_K; eassumption).
  eapply (k_bind _ _ K); [|intros b3 Hb3; apply k_ret; exact Hb3]. unfold t_delete_entry. destruct (_ =? _)%nat; [apply k_ret; exact Hb2|]. apply k_delete; assumption.
Qed.
Lemma k_merge_around b i : K b -> okA b -> (m <= i)%nat -> (i < bl_n b)%nat -> kpost (t_merge_around b i) K.
Proof.
  intros Hb Ha Hm Hi. unfold t_merge_around. cbv zeta.
  eapply (k_bind _ _ (fun '(j, b') => K b' /\ okA b' /\ (m <= j)%nat /\ (j < bl_n b')%nat)).
  { destruct (negb _) eqn:E; [|apply k_ret; auto].
    eapply k_bind; [apply k_conj; [apply k_try_merge; [exact Hb|exact Ha|lia|lia]|apply post_try_merge; [exact Ha|lia]]|].
    intros [[f k] b1] (Hb1 & Ha1 & Hk & Hf). apply k_ret. destruct f; split_and!; auto; lia. }
  intros [j b1] (Hb1 & Ha1 & Hj & Hjn). eapply k_bind; [apply k_try_merge; assumption|]. intros [[f k] b2] Hb2. apply k_ret. exact Hb2.
Qed.

(** one piece [t, t + c) with [s <= t] *)
Context (t c v : Z).
Context (Hok : ok_piece t c v).
Context (Hst : s <= t).
Lemma k_exact b so eo e : K b -> okA b -> (m <= so)%nat -> (so < bl_n b)%nat -> ebound e -> kpost (t_mark_exact b so eo e t c v) K.
Proof using HE0 Hok Hst.
  intros Hb Ha Hm Hso He. unfold t_mark_exact. destruct (v =? ABSENT) eqn:Ev; [apply k_delete; assumption|]. apply Z.eqb_neq in Ev.
  eapply k_bind; [apply k_conj; [apply k_bump; exact Hb|apply post_bump; [exact Ha|apply He]]|]. intros b1 [Hs Hs'].
  assert (okA b1) as Ha1 by (eapply same_okB; eassumption). assert (K b1) as Hb1 by (eapply sm_K; eassumption). destruct Hs as [S1 N1].
  eapply k_bind; [apply k_put; [exact Hb1|exact Hm|exact Hst]|]. intros ? ->.
  assert (K (set_slot b1 so (mkE t c (w8 v)))) as Hb2 by (apply K_set; [exact Hb1|apply after_ok; assumption]).
  assert (okA (set_slot b1 so (mkE t c (w8 v)))) as Ha2.
  { split; [apply geom_set, Ha1|]. apply holds_set; [apply Ha1|apply new_ok; auto]. }
  eapply k_bind; [apply k_conj; [apply k_bump; exact Hb2|apply post_bump; [exact Ha2|unfold ok_piece, ABSENT in *; lia]]|]. intros b3 [Hs Hs3].
  assert (okA b3) as Ha3 by (eapply same_okB; eassumption). assert (K b3) as Hb3 by (eapply sm_K; eassumption). destruct Hs as [S3 N3]. cbn in N3.
  eapply k_bind; [apply k_conj; [apply k_delete; [exact Hb3|lia]|apply post_delete; exact Ha3]|]. intros b4 (Hb4 & Ha4 & Hr & N4).
  apply k_merge_around; [exact Hb4|exact Ha4|exact Hm|lia].
Qed.
Lemma k_trim_start b so e : K b -> okA b -> (m <= S so)%nat -> (so < bl_n b)%nat -> bl_slots b !! so = Some e -> contains e t = true ->
  kpost (t_mark_trim_start b so e t) K.
Proof using HE0 Hok Hst.
  intros Hb Ha Hm Hso He Hc. pose proof (okA_ebound b so e Ha Hso He) as Be. rewrite contains_x in Hc by exact Be. unfold t_mark_trim_start. cbv zeta.
  assert (Hs : slot_ok so (mkE (e_start e) (w16 (t - e_start e)) (e_state e))) by (eapply cut_ok; eauto; lia).
  eapply k_bind; [apply k_wr; [exact Hb|exact Hs]|]. intros ? ->. apply k_assert. intros _. apply k_assert. intros _. apply k_assert. intros _.
  assert (K (set_slot b so (mkE (e_start e) (w16 (t - e_start e)) (e_state e)))) as Hb1 by (apply K_set; assumption).
  eapply k_weaken; [apply k_bump; exact Hb1|]. intros b' Hs'. eapply sm_K; eassumption.
Qed.
Lemma k_trim_end b eo : K b -> (m <= eo)%nat -> kpost (t_mark_trim_end b eo (w64 (t + c))) K.
Proof using HE0 Hok Hst.
  intros Hb Hm. unfold t_mark_trim_end. unfold ok_piece in Hok. rewrite (w64_id (t + c)) by lia.
  eapply (k_bind _ _ (fun _ => True)); [apply k_pure; auto|]. intros e _. cbv zeta.
  eapply k_bind; [apply k_wr; [exact Hb|apply after_ok; [exact Hm|cbn; lia]]|]. intros ? ->.
  eapply k_bind; [apply k_wr; [apply K_set; [exact Hb|]|]; (apply after_ok; [exact Hm|cbn; lia])|]. intros ? ->. rewrite set_set.
  apply k_assert. intros _. apply k_assert. intros _.
  match goal with |- kpost (t_bump ?b1 _ _) _ => assert (K b1) as Hb1 by (apply K_set; [exact Hb|apply after_ok; [exact Hm|cbn; lia]]) end.
  eapply k_weaken; [apply k_bump; exact Hb1|]. intros b' Hs'. eapply sm_K; eassumption.
Qed.
Lemma k_tail b so eo ec : K b -> okA b -> (so <= bl_n b)%nat -> (eo <= bl_n b)%nat -> (so = bl_n b -> m = 0%nat) -> (m <= S so)%nat ->
  (ec = true -> (m <= eo)%nat /\ exists e, (eo < bl_n b)%nat /\ bl_slots b !! eo = Some e /\ contains e (w64 (w64 (t + c) - 1)) = true) ->
  kpost (t_mark_tail b so eo ec t c v) K.
Proof using HE0 Hok Hst.
  intros Hb Ha Hso Heo Hsn Hm Hec. unfold t_mark_tail. cbv zeta.
  eapply (k_bind _ _ (fun b' => K b' /\ okA b' /\ bl_n b' = bl_n b)).
  { destruct ec; [|apply k_ret; auto]. destruct (Hec eq_refl) as (H0 & e & H1 & H2 & H3).
    eapply k_weaken; [apply k_conj; [apply k_trim_end; [exact Hb|exact H0]|eapply (post_trim_end _ t c v); eauto]|]. intros b' (? & ? & ?). auto. }
  intros b1 (Hb1 & Ha1 & N1). rewrite N1. set (db := if (so =? bl_n b)%nat then 0%nat else S so).
  assert (Hdb : (m <= db)%nat) by (subst db; destruct (Nat.eqb_spec so (bl_n b)); lia).
  eapply k_bind; [apply k_conj; [apply k_delete; [exact Hb1|exact Hdb]|apply post_delete; exact Ha1]|]. intros b2 (Hb2 & Ha2 & Hr & N2).
  destruct (v =? ABSENT) eqn:Ev; [apply k_ret; exact Hb2|]. apply Z.eqb_neq in Ev.
  eapply k_bind; [apply k_conj; [apply k_insert; [exact Hb2|exact Hdb|exact Hst]|apply post_insert; [exact Ha2|apply new_ok; auto|lia]]|]. intros b3 (Hb3 & Ha3 & N3).
  eapply k_bind; [apply k_rd; intros ins Hins; exact Hins|]. intros ins Hins.
  eapply k_bind; [apply k_conj; [apply k_bump; exact Hb3|apply post_bump; [exact Ha3|]]|].
  { eapply (okA_ebound b3); [exact Ha3| |exact Hins]. lia. }
  intros b4 [Hs Hs']. assert (okA b4) as Ha4 by (eapply same_okB; eassumption). assert (K b4) as Hb4 by (eapply sm_K; eassumption). destruct Hs as [_ N4].
  apply k_merge_around; [exact Hb4|exact Ha4|exact Hdb|lia].
Qed.

(** the binary search cannot miss the entries before [s] *)
Lemma ub_mono fuel : forall b x y first len, x <= y -> forall i j, ub_loop fuel b x first len = Done i -> ub_loop fuel b y first len = Done j -> fits b -> (len <= fuel)%nat -> (first + len <= bl_n b)%nat -> (i <= j)%nat.
Proof.
  induction fuel as [|fuel IH]; intros b x y first len Hxy i j Hi Hj Hf Hl Hn.
  - destruct len; cbn in Hi, Hj; [injection Hi as <-; injection Hj as <-; lia|discriminate Hi].
  - destruct len as [|len]; [cbn in Hi, Hj; injection Hi as <-; injection Hj as <-; lia|].
    cbn [ub_loop] in Hi, Hj. set (h := Nat.div2 (S len)) in *. assert (h <= len)%nat.
    { unfold h. rewrite Nat.div2_div. apply Nat.lt_succ_r. apply Nat.div_lt; lia. }
    destruct (rd b (first + h)) as [e| | |]; cbn [obind] in Hi, Hj; [|discriminate Hi..].
    destruct (Z.ltb_spec x (e_end e)), (Z.ltb_spec y (e_end e)).
    + eapply (IH b x y first h); [lia|exact Hi|exact Hj|exact Hf|lia|lia].
    + destruct (ub_loop_total fuel b x first h Hf) as (i' & E1 & Hi1); [lia..|].
      destruct (ub_loop_total fuel b y (S (first + h)) (S len - h - 1) Hf) as (j' & E2 & Hj2); [lia..|].
      rewrite Hi in E1. rewrite Hj in E2. injection E1 as <-. injection E2 as <-. lia.
    + lia.
    + eapply (IH b x y (S (first + h)) (S len - h - 1)%nat); [lia|exact Hi|exact Hj|exact Hf|lia|lia].
Qed.
Lemma ub_lower fuel : forall b x first len k i, ub_loop fuel b x first len = Done i -> fits b -> (len <= fuel)%nat -> (k <= first + len <= bl_n b)%nat ->
  (forall j e, (j < k)%nat -> bl_slots b !! j = Some e -> e_end e <= x) -> (k <= i)%nat.
Proof.
  induction fuel as [|fuel IH]; intros b x first len k i Hi Hf Hl Hn Hk.
  - destruct len; cbn in Hi; [injection Hi as <-; lia|discriminate Hi].
  - destruct len as [|len]; [cbn in Hi; injection Hi as <-; lia|].
    cbn [ub_loop] in Hi. set (h := Nat.div2 (S len)) in *. assert (h <= len)%nat.
    { unfold h. rewrite Nat.div2_div. apply Nat.lt_succ_r. apply Nat.div_lt; lia. }
    unfold rd in Hi. destruct (bl_slots b !! (first + h)%nat) as [e|] eqn:Ee; cbn [obind] in Hi; [|discriminate Hi].
    destruct (Z.ltb_spec x (e_end e)).
    + eapply (IH b x first h); [exact Hi|exact Hf|lia| |exact Hk]. split; [|lia].
      destruct (Nat.le_gt_cases k (first + h)) as [|Hgt]; [assumption|]. pose proof (Hk _ _ Hgt Ee). lia.
    + eapply (IH b x (S (first + h)) (S len - h - 1)%nat); [exact Hi|exact Hf|lia|lia|exact Hk].
Qed.
Lemma k_find b so eo : K b -> okA b -> find_overlapping_entries b t c = Done (so, eo) ->
  (so <= bl_n b)%nat /\ (eo <= bl_n b)%nat /\ (m <= S so)%nat /\ (so = bl_n b -> m = 0%nat) /\
  ((m <= eo)%nat \/ so = eo).
Proof using HE0 Hok Hst.
  intros Hb Ha Hf. assert (fits b) as Hfit by (destruct Ha as (_ & ? & _); assumption). pose proof (proj1 Hb) as Hmn.
  assert (ends : forall j e, (j < m - 1)%nat -> bl_slots b !! j = Some e -> e_end e <= t).
  { intros j e Hj He. pose proof (K_get b j e Hb ltac:(lia) He) as [S1 _]. destruct (S1 ltac:(lia)) as (e0 & _ & _ & _ & Be & _ & Hx).
    rewrite e_end_x by exact Be. specialize (Hx ltac:(lia)). lia. }
  unfold find_overlapping_entries in Hf. destruct (Nat.eqb_spec (bl_n b) 0) as [H0|H0]; [injection Hf as <- <-; lia|].
  cbv zeta in Hf. unfold ok_piece in Hok. rewrite w64_id in Hf by lia.
  destruct (search_entry b t) as [i| | |] eqn:Ei; cbn [obind] in Hf; [|discriminate Hf..]. pose proof Ei as Ei'. unfold search_entry in Ei'.
  assert (Hi : (m - 1 <= i)%nat) by (eapply (ub_lower _ b t); [exact Ei'|exact Hfit|lia|lia|exact ends]).
  assert (Hin : (i <= bl_n b)%nat).
  { destruct (search_total b t Hfit) as (i' & E & ?). rewrite Ei in E. injection E as <-. assumption. }
  destruct (Nat.eqb_spec i (bl_n b)) as [Hib|Hib]; [injection Hf as <- <-; lia|].
  unfold rd in Hf. destruct (bl_slots b !! i) as [e|] eqn:Ee; cbn [obind] in Hf; [|discriminate Hf].
  destruct (search_entry b (t + c)) as [j| | |] eqn:Ej; cbn [obind] in Hf; [|discriminate Hf..].
  assert (Hij : (i <= j)%nat) by (eapply (ub_mono _ b t (t + c) 0 (bl_n b)); [lia|exact Ei'|exact Ej|exact Hfit|lia|lia]).
  assert (Hjn : (j <= bl_n b)%nat).
  { destruct (search_total b (t + c) Hfit) as (i' & E & ?). rewrite Ej in E. injection E as <-. assumption. }
  injection Hf as <- <-. destruct (contains e t) eqn:Hc.
  - split_and!; try lia.
  - assert (Him : (m <= i)%nat).
    { destruct (Nat.le_gt_cases m i) as [|Hlt]; [assumption|]. exfalso. assert (S i = m) by lia.
      pose proof (K_get b i e Hb ltac:(lia) Ee) as [S1 _]. destruct (S1 ltac:(lia)) as (e0 & H1 & H2 & _ & Be & _).
      rewrite contains_x in Hc by exact Be. apply HE0 in H1.
      (* the search stopped at [i]: its end is behind [t] *)
      assert (t < e_end e).
      { destruct (Z.lt_ge_cases t (e_end e)) as [|Hge]; [assumption|]. exfalso.
        assert (m <= i)%nat; [|lia]. eapply (ub_lower _ b t); [exact Ei'|exact Hfit|lia|lia|]. intros k e' Hk He'.
        destruct (decide (k = i)) as [->|]; [rewrite Ee in He'; injection He' as <-; exact Hge|]. eapply ends; [|exact He']. lia. }
      rewrite e_end_x in * by exact Be. lia. }
    destruct (Nat.eqb_spec i 0) as [->|]; split_and!; try lia.
Qed.
Lemma k_internal b : K b -> okA b -> kpost (t_mark_internal b t c v) K.
Proof using HE0 Hok Hst.
  intros Hb Ha. assert (fits b) as Hf by (destruct Ha as (_ & ? & _); assumption). unfold t_mark_internal. cbv zeta.
  eapply k_bind; [apply k_pure; intros a H; exact H|]. intros [so eo] Hfo. destruct (k_find b so eo Hb Ha Hfo) as (Hso & Heo & Hms & Hsn & Hme).
  eapply (k_bind _ _ (fun '(b', eo') => K b' /\ okA b' /\ (so <= bl_n b')%nat /\ (eo' <= bl_n b')%nat /\ (so = bl_n b' -> m = 0%nat) /\ (m <= eo')%nat /\ (so <> eo' \/ so = bl_n b'))).
  { destruct (negb (so =? bl_n b)%nat && (so =? eo)%nat) eqn:E.
    - eapply k_bind; [apply k_conj; [apply k_split; [exact Hb|exact Ha|exact Hms|lia|exact Hst]|apply post_split; [exact Ha|lia]]|].
      intros b1 (Hb1 & Ha1 & N1). apply k_ret. split_and!; [exact Hb1|exact Ha1|lia..].
    - apply k_ret. split_and!; auto; lia. }
  intros [b1 eo1] (Hb1 & Ha1 & Hso1 & Heo1 & Hsn1 & Hme1 & Hne).
  assert (Hsc : forall i y r, (i <= bl_n b1)%nat ->
    (if negb (i =? bl_n b1)%nat then dlet e := rd b1 i in Done (contains e y) else Done false) = Done r ->
    (r = true -> exists e, (i < bl_n b1)%nat /\ bl_slots b1 !! i = Some e /\ contains e y = true)).
  { intros i y r Hi Hr ->. destruct (negb (i =? bl_n b1)%nat) eqn:E; [|discriminate Hr].
    unfold rd in Hr. destruct (bl_slots b1 !! i) as [e|]; cbn [obind] in Hr; [|discriminate Hr]. exists e. split; [lia|]. split; [reflexivity|]. congruence. }
  eapply k_bind; [apply k_pure; intros a H; exact H|]. intros sc Esc. eapply k_bind; [apply k_pure; intros a H; exact H|]. intros ec Eec.
  pose proof (Hsc so t sc Hso1 Esc) as Hscs. pose proof (Hsc eo1 (w64 (w64 (t + c) - 1)) ec Heo1 Eec) as Hecs.
  destruct sc; [|apply k_tail; auto].
  destruct (Hscs eq_refl) as (e & Hlt & He & Hc).
  eapply k_bind; [apply k_rd; intros x Hx; exact Hx|]. intros x Hx. rewrite He in Hx. injection Hx as <-.
  pose proof (okA_ebound b1 so e Ha1 Hlt He) as Be.
  destruct ((e_start e =? t) && (e_count e <=? c)) eqn:Ex.
  - apply k_exact; [exact Hb1|exact Ha1| |exact Hlt|exact Be].
    destruct (Nat.le_gt_cases m so) as [|Hls]; [assumption|]. exfalso. pose proof (K_get b1 so e Hb1 Hlt He) as [S1 _].
    destruct (S1 Hls) as (e0 & H1 & H2 & _). apply HE0 in H1. lia.
  - eapply k_bind; [apply k_conj; [apply k_trim_start; eassumption|eapply (post_trim_start _ t c v); eauto]|]. intros b2 (Hb2 & Ha2 & N2 & e' & S2).
    apply k_tail; [exact Hb2|exact Ha2|lia|lia|lia|exact Hms|]. intros ->. destruct (Hecs eq_refl) as (e2 & Hl2 & He2 & Hc2). split; [exact Hme1|].
    exists e2. split; [lia|]. split; [|exact Hc2]. rewrite S2. rewrite list_lookup_insert_ne by lia. exact He2.
Qed.
End Kept.

(** ** Whole calls *)
Lemma k_mark s m E0 b r : (forall i e, E0 !! i = Some e -> e_start e < s) -> valid_req r -> s <= r_start r -> K s m E0 b -> okA b ->
  kpost s m E0 (calls b r) (fun b' => K s m E0 b' /\ okA b').
Proof.
  intros HE0 (V1 & V2 & V3 & V4) Hs Hb Ha. unfold calls, t_mark.
  set (u := r_start r) in *. set (c := r_count r) in *. set (v := r_state r) in *.
  assert (HI : forall n, kpost s m E0 (N.iter n (t_mark_body v) (tret (b, u, c)))
    (fun '(b1, s1, c1) => (K s m E0 b1 /\ okA b1) /\ u <= s1 /\ s1 + c1 = u + c /\ 0 <= c1 /\
       (c1 <= LIMIT \/ c1 <= c - LIMIT * Z.of_N n))).
  { intros n. induction n as [|n IH] using N.peano_ind.
    - apply k_ret. split_and!; try lia; assumption.
    - rewrite N.iter_succ. unfold t_mark_body at 1. eapply k_bind; [exact IH|].
      intros [[b1 s1] c1] ((Hb1 & Ha1) & I1 & I2 & I3 & I4). unfold LIMIT in *. destruct (65535 <? c1) eqn:E.
      + eapply k_bind.
        { apply k_conj; [apply k_internal; [exact HE0|unfold ok_piece; lia|lia|exact Hb1|exact Ha1]|].
          apply post_internal; [unfold ok_piece; lia|auto|exact Ha1]. }
        intros b2 Hb2. apply k_ret. rewrite !w64_id by lia. split_and!; try lia; apply Hb2.
      + apply k_ret. split_and!; try lia; assumption. }
  eapply k_bind; [apply HI|]. intros [[b1 s1] c1] ((Hb1 & Ha1) & I1 & I2 & I3 & I4).
  destruct (0 <? c1) eqn:E; [|apply k_ret; auto].
  assert (c1 <= 65535). { unfold LIMIT in *. destruct I4 as [I4|I4]; [lia|]. rewrite Z2N.id in I4 by (apply Z.div_pos; lia). lia. }
  apply k_conj; [apply k_internal; [exact HE0|unfold ok_piece; lia|lia|exact Hb1|exact Ha1]|].
  apply post_internal; [unfold ok_piece; lia|auto|exact Ha1].
Qed.

Lemma state_after_in s L x : x < s -> Forall (fun e => s <= e_start e) L -> forall A, state_in (A ++ L) x = state_in A x.
Proof.
  intros Hx HL. assert (H0 : state_in L x = ABSENT).
  { induction HL as [|e L He HL IH]; [reflexivity|]. cbn [state_in]. rewrite (proj2 (Z.leb_gt _ _)) by lia. exact IH. }
  induction A as [|a A IH]; cbn [app state_in]; [exact H0|]. rewrite IH. reflexivity.
Qed.
Lemma state_pre_in s x : x < s -> forall A B,
  Forall2 (fun e e0 => e_start e = e_start e0 /\ e_state e = e_state e0 /\ ebound e /\ ebound e0 /\ Z.min (xend e) s = Z.min (xend e0) s) A B ->
  state_in A x = state_in B x.
Proof.
  intros Hx A B H. induction H as [|a b A B (H1 & H2 & H3 & H4 & H5) _ IH]; [reflexivity|]. cbn [state_in].
  unfold ebound, xend in *. rewrite !w64_id by lia. rewrite H1, H2, IH in *. destruct (e_start b <=? x); [|reflexivity].
  replace (x <? e_start b + e_count a) with (x <? e_start b + e_count b) by lia. reflexivity.
Qed.
Lemma K_state s m E0 b x : length E0 = m -> Forall ebound E0 -> K s m E0 b -> x < s -> state_of b x = state_in E0 x.
Proof.
  intros Hlen HB [Hn H] Hx. unfold state_of, live. replace (take (bl_n b) (bl_slots b)) with (take m (bl_slots b) ++ take (bl_n b - m) (drop m (bl_slots b))).
  2:{ rewrite take_drop_commute. replace (m + (bl_n b - m))%nat with (bl_n b) by lia.
      pose proof (take_drop m (take (bl_n b) (bl_slots b))) as Ht. rewrite take_take in Ht. replace (m `min` bl_n b)%nat with m in Ht by lia. exact Ht. }
  rewrite (state_after_in s).
  - apply (state_pre_in s); [exact Hx|]. apply Forall2_same_length_lookup. split; [rewrite take_length; lia|].
    intros i e e0 He He0. assert (i < m)%nat by (apply lookup_lt_Some in He0; lia). rewrite lookup_take in He by assumption.
    destruct (H i e ltac:(lia) He) as [S1 _]. destruct (S1 ltac:(lia)) as (e0' & F1 & F2 & F3 & F4 & F5 & _).
    rewrite He0 in F1. injection F1 as <-. split_and!; auto. rewrite Forall_lookup in HB. eauto.
  - exact Hx.
  - apply Forall_lookup. intros i e He. assert (i < bl_n b - m)%nat by (apply lookup_lt_Some in He; rewrite take_length in He; lia).
    rewrite lookup_take in He by assumption. rewrite lookup_drop in He. destruct (H (m + i)%nat e ltac:(lia) He) as [_ S2]. apply S2. lia.
Qed.

(** a proper list is cut by [s] *)
Lemma cut_list s L : Forall ebound L -> disjoint_l L ->
  exists m, (m <= length L)%nat /\ (forall i e, (i < m)%nat -> L !! i = Some e -> e_start e < s) /\ (forall i e, (m <= i)%nat -> L !! i = Some e -> s <= e_start e).
Proof.
  intros HB HD. assert (forall k, (k <= length L)%nat -> exists m, (m <= k)%nat /\ (forall i e, (i < m)%nat -> L !! i = Some e -> e_start e < s) /\ (forall i e, (m <= i < k)%nat -> L !! i = Some e -> s <= e_start e)) as Hk.
  { induction k as [|k IH]; intros Hl; [exists 0%nat; split; [lia|]; split; intros; lia|].
    destruct IH as (m & H1 & H2 & H3); [lia|]. destruct (lookup_lt_is_Some_2 L k) as [e He]; [lia|].
    destruct (Z.lt_ge_cases (e_start e) s) as [Hlt|Hge].
    - exists (S k). split; [lia|]. split; [|intros; lia]. intros i e' Hi He'. destruct (decide (i = k)) as [->|]; [rewrite He in He'; injection He' as <-; exact Hlt|].
      pose proof (disjoint_lookup L i k e' e HD He' He ltac:(lia)). rewrite Forall_lookup in HB. pose proof (HB _ _ He'). unfold ebound, xend in *. lia.
    - exists m. split; [lia|]. split; [exact H2|]. intros i e' Hi He'. destruct (decide (i = k)) as [->|]; [rewrite He in He'; injection He' as <-; exact Hge|]. apply (H3 i e'); [lia|exact He']. }
  destruct (Hk (length L) ltac:(lia)) as (m & H1 & H2 & H3). exists m. split; [exact H1|]. split; [exact H2|]. intros i e Hi He. apply (H3 i e); [|exact He]. split; [exact Hi|]. apply lookup_lt_Some in He. exact He.
Qed.
Theorem kept b r t b' : DInv b -> valid_req r -> killed t b r b' -> forall x, x < r_start r -> state_of b' x = state_of b x.
Proof.
  intros HD V [[_ ->]|Hk] x Hx; [reflexivity|]. pose proof (disjoint_ok b HD) as Hok0.
  assert (okA b) as Ha by (eapply okB_weaken; [|exact Hok0]; auto).
  pose proof HD as ((HR & HB & _) & HDj). set (s := r_start r) in *.
  destruct (cut_list s (live b) HB HDj) as (m & H1 & H2 & H3). set (E0 := take m (live b)).
  assert (Hlen : length E0 = m) by (subst E0; rewrite take_length; lia).
  assert (HBE : Forall ebound E0) by (apply Forall_take; exact HB).
  assert (HE : forall i e, E0 !! i = Some e -> e_start e < s).
  { intros i e He. assert (i < m)%nat by (apply lookup_lt_Some in He; lia). subst E0. rewrite lookup_take in He by assumption. apply (H2 i e); assumption. }
  assert (Hfit : (bl_n b <= length (bl_slots b))%nat) by (destruct Ha as (_ & ? & _); assumption).
  assert (HLn : length (live b) = bl_n b) by (unfold live; rewrite take_length; lia).
  assert (HK : K s m E0 b).
  { split; [lia|]. intros i e Hi He. assert (HeL : live b !! i = Some e) by (unfold live; rewrite lookup_take by exact Hi; exact He).
    assert (Be : ebound e) by (rewrite Forall_lookup in HB; eauto). split; [|intros Hm; apply (H3 i e); assumption].
    intros Hm. exists e. split; [subst E0; rewrite lookup_take by exact Hm; exact HeL|]. split_and!; try reflexivity; [exact Be|].
    intros Hs. destruct (lookup_lt_is_Some_2 (live b) (S i)) as [e' He']; [lia|].
    pose proof (disjoint_lookup (live b) i (S i) e e' HDj HeL He' ltac:(lia)). pose proof (H2 (S i) e' Hs He'). lia. }
  destruct (k_mark s m E0 b r HE V ltac:(subst s; lia) HK Ha) as [HP _].
  rewrite (K_state s m E0 b' x Hlen HBE (HP _ _ Hk) Hx). symmetry. apply (K_state s m E0 b x Hlen HBE HK Hx).
Qed.
