(** Property theorems C06, C07: exactly when truncate_access answers correctly.
    Only statements, witnesses and [Print Assumptions]. *)
From Coq Require Import Sorted.
From Verif Require Import Prelude Blocklist BlocklistSpec BlocklistProofs BlocklistSem BlocklistMain
  BlocklistMore BlocklistThm BlocklistFinal BlocklistSmall BlocklistAccess PropsBlocklist.

(** The value for every start, aligned or not.  [E] is the first absent block behind the start. *)
Theorem C06_C07_exact : forall h b start size,
  Forall valid_req h -> all_calls good_req (fun _ => ABSENT) h -> run bl_fresh h = Done b ->
  0 <= start -> 0 <= size -> start + size + 8192 < 2 ^ 64 -> expected h (start / 4096) <> ABSENT ->
  exists E, start / 4096 < E /\ (forall x, start / 4096 <= x < E -> expected h x <> ABSENT) /\
    (start + size <= E * 4096 /\ truncate_access b start size = Done size \/
     E * 4096 < start + size /\ expected h E = ABSENT /\
       ((exists y, E < y /\ expected h y <> ABSENT) /\
          truncate_access b start size = Done (Z.min size ((E - start / 4096) * 4096)) \/
        (forall y, E <= y -> expected h y = ABSENT) /\
          truncate_access b start size = match bl_slots b !! bl_n b with
            | None => Crash
            | Some e => Done (Z.min size (w64 ((Z.min ((start + size + 4095) / 4096 + 1)
                          (if e_start e =? E then e_end e else E) - start / 4096) * 4096)))
            end)).
Proof.
  intros h b start size Hv Hg Hr H1 H2 H3 Hp.
  destruct (run_C h bl_fresh (fun _ => ABSENT)) as (b' & Hr' & HC & Hx); [exact CInv_fresh|intros; reflexivity|exact Hv|exact Hg|].
  rewrite Hr in Hr'. injection Hr' as <-. change (forall x, state_of b x = expected h x) in Hx.
  destruct (access_exact b start size HC H1 H2 H3 ltac:(rewrite Hx; exact Hp)) as (E & HE & Hpres & Hres).
  exists E. split; [exact HE|]. split; [intros x Hxx; rewrite <- Hx; auto|].
  destruct Hres as [?|(Hlt & Hab & [[(y & Hy & Hyy) ?]|[Hy ?]])]; [left; assumption| |]; right; (split; [assumption|]); (split; [rewrite <- Hx; assumption|]).
  - left. split; [exists y; rewrite <- Hx; auto|assumption].
  - right. split; [intros y Hyy; rewrite <- Hx; auto|assumption].
Qed.
Print Assumptions C06_C07_exact.

(** The answer is the one the caller wants exactly when the whole range is there, or the start is
    aligned and either something is cached behind the first hole or the slot behind the last entry
    does not look like a run starting at the hole. *)
Theorem C06_C07_iff : forall h b start size,
  Forall valid_req h -> all_calls good_req (fun _ => ABSENT) h -> run bl_fresh h = Done b ->
  0 <= start -> 0 <= size -> start + size + 8192 < 2 ^ 64 -> expected h (start / 4096) <> ABSENT ->
  (exists r, truncate_access b start size = Done r /\
     0 <= r <= size /\
     (forall p, start <= p < start + r -> expected h (p / 4096) <> ABSENT) /\
     (r < size -> expected h ((start + r) / 4096) = ABSENT)) <->
  (forall p, start <= p < start + size -> expected h (p / 4096) <> ABSENT) \/
  (start mod 4096 = 0 /\ exists E, start / 4096 < E /\ expected h E = ABSENT /\
    (forall x, start / 4096 <= x < E -> expected h x <> ABSENT) /\
    ((exists y, E < y /\ expected h y <> ABSENT) \/
     exists e, bl_slots b !! bl_n b = Some e /\ (e_start e = E -> e_end e = E))).
Proof.
  intros h b start size Hv Hg Hr H1 H2 H3 Hp.
  destruct (run_C h bl_fresh (fun _ => ABSENT)) as (b' & Hr' & HC & Hx); [exact CInv_fresh|intros; reflexivity|exact Hv|exact Hg|].
  rewrite Hr in Hr'. injection Hr' as <-. change (forall x, state_of b x = expected h x) in Hx.
  pose proof (access_iff b start size HC H1 H2 H3 ltac:(rewrite Hx; exact Hp)) as Hi. unfold right_answer in Hi.
  split.
  - intros (r & Hr1 & Hr2 & Hr3 & Hr4). destruct (proj1 Hi) as [Ha|(Ha & E & H5 & H6 & H7 & H8)].
    + exists r. split; [exact Hr1|]. split; [exact Hr2|]. split; [intros p Hpp; rewrite Hx; auto|intros; rewrite Hx; auto].
    + left. intros p Hpp. rewrite <- Hx. auto.
    + right. split; [exact Ha|]. exists E. rewrite <- Hx. split; [exact H5|]. split; [exact H6|]. split; [intros x Hxx; rewrite <- Hx; auto|].
      destruct H8 as [(y & Hy1 & Hy2)|?]; [left; exists y; rewrite <- Hx; auto|right; assumption].
  - intros Ha. destruct (proj2 Hi) as (r & Hr1 & Hr2 & Hr3 & Hr4).
    + destruct Ha as [Ha|(Ha & E & H5 & H6 & H7 & H8)]; [left; intros p Hpp; rewrite Hx; auto|right].
      split; [exact Ha|]. exists E. rewrite Hx. split; [exact H5|]. split; [exact H6|]. split; [intros x Hxx; rewrite Hx; auto|].
      destruct H8 as [(y & Hy1 & Hy2)|?]; [left; exists y; rewrite Hx; auto|right; assumption].
    + exists r. split; [exact Hr1|]. split; [exact Hr2|]. split; [intros p Hpp; rewrite <- Hx; auto|intros; rewrite <- Hx; auto].
Qed.
Print Assumptions C06_C07_iff.

(** both sides occur: after [0,4) [4,8) marked the answer for nine blocks is eight blocks, the slot
    behind being empty (but an unaligned start gets 4095 bytes too many); after deleting [4,8) again the deleted run is still believed in *)
Definition acc_h : list req := [mkReq 0 4 1; mkReq 4 4 3].
Definition acc_h2 : list req := [mkReq 0 4 1; mkReq 4 4 3; mkReq 4 4 ABSENT].
Lemma acc_valid : Forall valid_req acc_h /\ all_calls good_req (fun _ => ABSENT) acc_h /\
  Forall valid_req acc_h2 /\ all_calls good_req (fun _ => ABSENT) acc_h2.
Proof.
  split; [repeat constructor; unfold valid_req, ABSENT; simpl; lia|]. split; [solve_good|].
  split; [repeat constructor; unfold valid_req, ABSENT; simpl; lia|]. solve_good. exists 8. split; [split|]; vm_compute; discriminate.
Qed.
Example acc_sample :
  (exists b e, run bl_fresh acc_h = Done b /\ bl_slots b !! bl_n b = Some e /\ e_start e <> 8 /\
     truncate_access b 0 36864 = Done 32768 /\ truncate_access b 4095 36864 = Done 32768) /\
  (exists b e, run bl_fresh acc_h2 = Done b /\ bl_slots b !! bl_n b = Some e /\ e_start e = 4 /\ e_end e = 8 /\
     truncate_access b 0 36864 = Done 32768).
Proof.
  split.
  - eexists _, _. split; [vm_compute; reflexivity|]. split; [vm_compute; reflexivity|].
    split; [vm_compute; discriminate|]. split; vm_compute; reflexivity.
  - eexists _, _. repeat (split; [vm_compute; reflexivity|]). vm_compute; reflexivity.
Qed.
