(** Property theorems C63: killing the process in the middle of a call of mark().
    Only specification, statements, short proofs from the lemmas, witnesses and
    [Print Assumptions]. *)
From Coq Require Import Sorted.
From Verif Require Import Prelude Blocklist BlocklistSpec BlocklistProofs BlocklistSem BlocklistMain BlocklistMore
  BlocklistThm BlocklistFinal BlocklistStores BlocklistCrash BlocklistKept.

(** ** Specification

    The life of one list: calls that return, calls during which the process is
    killed (never in the middle of one entry; the next process opens what is in
    the file) and calls of fsck() that return; [lives h b]: [h] are the marks
    asked for, in order, [b] is what the file holds. *)
Inductive lives : list req -> bl -> Prop :=
| lives_new : lives [] bl_fresh
| lives_mark h b r b' : lives h b -> valid_req r ->
    mark b (r_start r) (r_count r) (r_state r) = Done b' -> lives (h ++ [r]) b'
| lives_killed h b r b' b'' : lives h b -> valid_req r ->
    killed false b r b' -> open_file (Some b') = Done b'' -> lives (h ++ [r]) b''
| lives_fsck h b b' : lives h b -> fsck b = Done b' -> lives h b'.

(** The full claim: killing the process in the middle of a call, wherever that
    is, leaves every block outside of the range of the call as it was and every
    block inside in its old or its new state, in a list that fsck() accepts. *)
Definition C63_full : Prop := forall h b r t b', Forall valid_req h -> all_calls good_req (fun _ => ABSENT) h ->
  run bl_fresh h = Done b -> valid_req r -> killed t b r b' ->
  (forall x, state_of b' x = expected h x \/ (covers r x = true /\ state_of b' x = r_state r)) /\
  exists b'', fsck b' = Done b''.

(** ** Uninterrupted calls *)

(** The recorded stores are those of [mark]: a call that is not interrupted
    ends with what Blocklist.v says (for every file whose entry count fits its
    size). *)
Theorem C63_uninterrupted : forall b r, (bl_n b <= capacity b)%nat ->
  erase (snd (calls b r)) = mark b (r_start r) (r_count r) (r_state r).
Proof. intros b r H. apply er_mark. exact H. Qed.
Print Assumptions C63_uninterrupted.

(** ** One interrupted call *)

(** After a history for which the list is right (C01), killing the process
    between any two stores that do not belong to one entry leaves every block in
    its old state, in its new state if it is in the range of the call, or absent;
    and the file can be opened again. *)
Theorem C63_interrupted_partial : forall h b r b', Forall valid_req h -> all_calls safe_req (fun _ => ABSENT) h ->
  run bl_fresh h = Done b -> valid_req r -> killed false b r b' ->
  open_file (Some b') = Done b' /\
  forall x, state_of b' x = expected h x \/ state_of b' x = ABSENT \/ (covers r x = true /\ state_of b' x = r_state r).
Proof.
  intros h b r b' Hv Hs Hr V Hk. destruct (run_safe h Hv Hs) as (b0 & E & HD & Hx). rewrite E in Hr. injection Hr as ->.
  set (P := fun x v => v = state_of b x \/ (covers r x = true /\ v = r_state r)).
  assert (okB P b') as Hb.
  { eapply (killed_ok P); [exact V| | |exact Hk].
    - intros x Hc _. right. auto.
    - eapply okB_weaken; [|apply disjoint_ok; exact HD]. intros x v ->. left. reflexivity. }
  split; [eapply okB_open; exact Hb|]. intros x. destruct (decide (state_of b' x = ABSENT)) as [Ha|Ha]; [auto|].
  destruct (okB_state P b' x Hb Ha) as [H|H]; [left; rewrite H; apply Hx|auto].
Qed.
Print Assumptions C63_interrupted_partial.

(** Blocks before the range of the call are in their old state wherever the process is killed, even
    between the two stores into one entry: the damage is confined to the range and what follows. *)
Theorem C63_before_range : forall h b r t b', Forall valid_req h -> all_calls safe_req (fun _ => ABSENT) h ->
  run bl_fresh h = Done b -> valid_req r -> killed t b r b' ->
  forall x, x < r_start r -> state_of b' x = expected h x.
Proof.
  intros h b r t b' Hv Hs Hr V Hk x Hx. destruct (run_safe h Hv Hs) as (b0 & E & HD & Hex). rewrite E in Hr. injection Hr as ->.
  rewrite <- Hex. eapply kept; eassumption.
Qed.
Print Assumptions C63_before_range.

(** ** Any number of interrupted calls *)
Lemma lives_ok h b : lives h b -> okB (fun x v => exists r, In r h /\ covers r x = true /\ v = r_state r) b.
Proof.
  assert (W : forall h r b, okB (fun x v => exists r, In r h /\ covers r x = true /\ v = r_state r) b ->
    okB (fun x v => exists q, In q (h ++ [r]) /\ covers q x = true /\ v = r_state q) b).
  { intros h0 r b0. apply okB_weaken. intros x v (q & Hq & Hc). exists q. split; [apply in_app_iff; auto|exact Hc]. }
  assert (N : forall (h : list req) r x, covers r x = true -> r_state r <> ABSENT ->
    exists q, In q (h ++ [r]) /\ covers q x = true /\ r_state r = r_state q).
  { intros h0 r x Hc _. exists r. split; [apply in_app_iff; right; left; reflexivity|auto]. }
  induction 1 as [|h b r b' _ IH V Hm|h b r b' b'' _ IH V Hk Ho|h b b' _ IH Hf].
  - apply okB_fresh.
  - eapply mark_okB; [exact V| |apply W; exact IH|exact Hm]. apply N.
  - assert (okB (fun x v => exists q, In q (h ++ [r]) /\ covers q x = true /\ v = r_state q) b') as Hb.
    { eapply killed_ok; [exact V| |apply W; exact IH|exact Hk]. apply N. }
    rewrite (okB_open _ _ Hb) in Ho. injection Ho as <-. exact Hb.
  - eapply (okB_fsck _ b); eassumption.
Qed.

(** Whatever is interrupted and however often: a block is only ever reported in
    a state that somebody asked for, for that block. *)
Theorem C63_never_invented : forall h b x, lives h b -> state_of b x <> ABSENT ->
  exists r, In r h /\ covers r x = true /\ r_state r = state_of b x.
Proof.
  intros h b x Hl Hx. destruct (okB_state _ _ x (lives_ok h b Hl) Hx) as (r & H1 & H2 & H3). exists r. auto.
Qed.
Print Assumptions C63_never_invented.

(** ... the file can be opened again at every such point ... *)
Theorem C63_reopens : forall h b r b', lives h b -> valid_req r -> killed false b r b' ->
  open_file (Some b') = Done b' /\ lives (h ++ [r]) b'.
Proof.
  intros h b r b' Hl V Hk.
  assert (open_file (Some b') = Done b') as Ho.
  { eapply (okB_open (fun _ _ => True)). eapply killed_ok; [exact V|auto| |exact Hk].
    eapply okB_weaken; [|apply lives_ok; exact Hl]. auto. }
  split; [exact Ho|]. eapply lives_killed; eassumption.
Qed.
Print Assumptions C63_reopens.

(** ... and a later call either returns or stops at an assertion: it never
    reads or writes outside of the mapping. *)
Theorem C63_in_bounds : forall h b r, lives h b -> valid_req r -> snd (calls b r) <> TUB.
Proof.
  intros h b r Hl V. destruct (post_mark (fun _ _ => True) b r V) as (_ & H); [auto| |].
  - eapply okB_weaken; [|apply lives_ok; exact Hl]. auto.
  - intros E. rewrite E in H. exact H.
Qed.
Print Assumptions C63_in_bounds.

(** ** What is wrong *)
Definition after (h : list req) : bl := match run bl_fresh h with Done b => b | _ => bl_fresh end.
(** the file after the [k]th store of the call *)
Definition kill_at (k : nat) (b : bl) (r : req) : bl :=
  match fst (calls b r) !! k with Some (_, b') => b' | None => b end.

Ltac vr := repeat split; vm_compute; first [reflexivity | discriminate].
Lemma kill_at_killed t k b r b' : fst (calls b r) !! k = Some (t, b') -> killed t b r b'.
Proof. intros H. right. apply elem_of_list_In. eapply elem_of_list_lookup_2. exact H. Qed.

(** A kill between the two stores into one entry invents blocks: blocks 5-14 are
    cached, blocks 2-6 are dropped, and blocks 15 and 16, which nobody ever
    marked, are reported as cached. *)
Theorem C63_torn_entry_refuted : exists h b r b', Forall valid_req h /\ all_calls good_req (fun _ => ABSENT) h /\
  run bl_fresh h = Done b /\ valid_req r /\ killed true b r b' /\ open_file (Some b') = Done b' /\
  state_of b' 15 = READ /\ state_of b' 16 = READ /\ (forall q, In q (h ++ [r]) -> covers q 16 = false).
Proof.
  exists [mkReq 5 10 READ], (after [mkReq 5 10 READ]), (mkReq 2 5 ABSENT),
    (kill_at 0 (after [mkReq 5 10 READ]) (mkReq 2 5 ABSENT)).
  split; [apply Forall_cons; split; [vr|apply Forall_nil; exact I]|]. split.
  { split; [|exact I]. split; intros s c (k & Hk & Hk1 & -> & ->); cbn [r_start r_count r_state] in *.
    - assert (k = 0) as -> by lia. right. left. reflexivity.
    - left. reflexivity. }
  split; [vm_compute; reflexivity|]. split; [vr|]. split; [apply (kill_at_killed true 0); vm_compute; reflexivity|].
  split; [vm_compute; reflexivity|]. split; [vm_compute; reflexivity|]. split; [vm_compute; reflexivity|].
  intros q [<-|[<-|[]]]; reflexivity.
Qed.
Print Assumptions C63_torn_entry_refuted.

(** Blocks outside of the range are lost: ten blocks have been written, block 4
    is pinned, and after a kill blocks 5-9 are absent. *)
Theorem C63_lost_blocks_refuted : exists h b r b', Forall valid_req h /\ all_calls good_req (fun _ => ABSENT) h /\
  run bl_fresh h = Done b /\ valid_req r /\ killed false b r b' /\
  forall x, 5 <= x < 10 -> expected h x = WRITTEN /\ covers r x = false /\ state_of b' x = ABSENT.
Proof.
  exists [mkReq 0 10 WRITTEN], (after [mkReq 0 10 WRITTEN]), (mkReq 4 1 PINNED),
    (kill_at 0 (after [mkReq 0 10 WRITTEN]) (mkReq 4 1 PINNED)).
  split; [apply Forall_cons; split; [vr|apply Forall_nil; exact I]|]. split.
  { split; [|exact I]. split; intros s c (k & Hk & Hk1 & -> & ->); cbn [r_start r_count r_state] in *.
    - assert (k = 0) as -> by lia. right. left. reflexivity.
    - left. reflexivity. }
  split; [vm_compute; reflexivity|]. split; [vr|]. split; [apply (kill_at_killed false 0); vm_compute; reflexivity|].
  intros x Hx. assert (x = 5 \/ x = 6 \/ x = 7 \/ x = 8 \/ x = 9) as Hd by lia.
  decompose [or] Hd; subst; (split; [vm_compute; reflexivity|split; vm_compute; reflexivity]).
Qed.
Print Assumptions C63_lost_blocks_refuted.

Lemma lives_run h b : Forall valid_req h -> run bl_fresh h = Done b -> lives h b.
Proof.
  assert (G : forall h h0 b0 b, lives h0 b0 -> Forall valid_req h -> run b0 h = Done b -> lives (h0 ++ h) b).
  { intros hh. induction hh as [|r hh IH]; intros h0 b0 b1 Hl Hv Hr.
    - injection Hr as <-. rewrite app_nil_r. exact Hl.
    - inversion Hv as [|? ? V Hv']; subst. cbn [run] in Hr.
      destruct (mark b0 _ _ _) as [b2| | |] eqn:E; cbn [obind] in Hr; try discriminate Hr.
      change (r :: hh) with ([r] ++ hh). rewrite app_assoc. eapply IH; [eapply lives_mark; eassumption|assumption|exact Hr]. }
  intros Hv Hr. apply (G h [] bl_fresh b lives_new Hv Hr).
Qed.

Definition dh : list req := [mkReq 2 2 READ; mkReq 5 2 READAHEAD; mkReq 11 2 READ; mkReq 14 2 READ].
Definition dr : req := mkReq 8 1 PINNED.
Lemma damage : fst (calls (after dh) dr) !! 8%nat = Some (false, kill_at 8 (after dh) dr) /\
  fsck (kill_at 8 (after dh) dr) = Throw /\
  match mark (kill_at 8 (after dh) dr) 11 1 ABSENT with Done b => state_of b 11 = READ /\ fsck b = Throw | _ => False end.
Proof.
  split; [vm_compute; reflexivity|]. split; [vm_compute; reflexivity|]. vm_compute. split; reflexivity.
Qed.

(** The damage stays: after a kill fsck() refuses the list for ever, and a later
    call mark(11, 1, ABSENT) that returns leaves block 11 reported as cached. *)
Theorem C63_lasting_damage_refuted : exists h b r b1 b2, lives h b /\ valid_req r /\ killed false b r b1 /\
  fsck b1 = Throw /\ mark b1 11 1 ABSENT = Done b2 /\ lives (h ++ [r; mkReq 11 1 ABSENT]) b2 /\
  state_of b2 11 = READ /\ fsck b2 = Throw.
Proof.
  destruct damage as (H1 & H2 & H3).
  destruct (mark (kill_at 8 (after dh) dr) 11 1 ABSENT) as [b2| | |] eqn:E2; [|destruct H3..].
  destruct H3 as (H3 & H4).
  assert (valid_req dr) as V by vr.
  assert (lives dh (after dh)) as Hl.
  { apply lives_run; [repeat (apply Forall_cons; split; [vr|]); apply Forall_nil; exact I|]. vm_compute. reflexivity. }
  assert (killed false (after dh) dr (kill_at 8 (after dh) dr)) as HK by (apply (kill_at_killed false 8); exact H1).
  exists dh, (after dh), dr, (kill_at 8 (after dh) dr), b2.
  split; [exact Hl|]. split; [exact V|]. split; [exact HK|]. split; [exact H2|]. split; [exact E2|]. split; [|split; [exact H3|exact H4]].
  change (dh ++ [dr; mkReq 11 1 ABSENT]) with ((dh ++ [dr]) ++ [mkReq 11 1 ABSENT]).
  eapply lives_mark; [eapply (C63_reopens dh (after dh) dr); eassumption|vr|exact E2].
Qed.
Print Assumptions C63_lasting_damage_refuted.

Theorem C63_refuted : ~ C63_full.
Proof.
  intros HF. destruct C63_lost_blocks_refuted as (h & b & r & b' & H1 & H2 & H3 & H4 & H5 & H6).
  destruct (H6 5) as (E1 & E2 & E3); [lia|].
  destruct (HF h b r false b' H1 H2 H3 H4 H5) as (HF1 & _). destruct (HF1 5) as [E|[E _]].
  - rewrite E1, E3 in E. discriminate E.
  - rewrite E2 in E. discriminate E.
Qed.
Print Assumptions C63_refuted.

(** A kill while a new list is created leaves a file that open() rejects from
    then on. *)
Theorem C63_create_refuted : exists b, In (false, b) t_create /\ open_file (Some b) = Throw.
Proof. eexists. split; [left; reflexivity|]. vm_compute. reflexivity. Qed.
Print Assumptions C63_create_refuted.

(** ** The hypotheses are met *)
Example C63_sample : exists h b r, Forall valid_req h /\ all_calls safe_req (fun _ => ABSENT) h /\
  run bl_fresh h = Done b /\ lives h b /\ valid_req r /\ length (fst (calls b r)) = 16%nat.
Proof.
  exists [mkReq 0 10 READ], (after [mkReq 0 10 READ]), (mkReq 4 1 PINNED).
  split; [apply Forall_cons; split; [vr|apply Forall_nil; exact I]|]. split.
  { split; [|exact I]. intros s c (k & Hk & Hk1 & -> & ->); cbn [r_start r_count r_state] in *.
    assert (k = 0) as -> by lia. right. left. reflexivity. }
  split; [vm_compute; reflexivity|]. split.
  { apply (lives_mark [] bl_fresh (mkReq 0 10 READ)); [apply lives_new|vr|vm_compute; reflexivity]. }
  split; [vr|]. vm_compute. reflexivity.
Qed.
(** the torn entry of [C63_torn_entry_refuted], with a block before the range that is present *)
Example C63_before_sample : exists b b', run bl_fresh [mkReq 1 1 PINNED; mkReq 5 10 READ] = Done b /\
  killed true b (mkReq 2 5 ABSENT) b' /\ state_of b' 15 = READ /\ state_of b' 1 = PINNED.
Proof.
  exists (after [mkReq 1 1 PINNED; mkReq 5 10 READ]), (kill_at 0 (after [mkReq 1 1 PINNED; mkReq 5 10 READ]) (mkReq 2 5 ABSENT)).
  split; [vm_compute; reflexivity|]. split; [apply (kill_at_killed true 0); vm_compute; reflexivity|]. split; vm_compute; reflexivity.
Qed.
