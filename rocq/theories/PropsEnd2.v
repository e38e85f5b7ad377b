(** Samples for C49, and C52: the entries "." and "..". *)
From Verif Require Import PropsMem3.
From Verif Require Export PropsEnd.

(** *** C49: /a with f and l, /g; mounted, looked up, listed, disconnected *)
Definition memA : backend := mem_backend LIM ord0 (mst wrote).
Definition memOff : backend := mem_backend LIM ord0 (mst (wrote ++ [MConnect false])).
Lemma memA_speaks : speaks_for LIM ord0 (mst wrote) memA.
Proof. apply (C49_backend_exists _ _ _ (mtr wrote)); [vm_compute; reflexivity|exact wrote_hist]. Qed.
Lemma off_hist : mhist LIM ord0 (mst (wrote ++ [MConnect false])) (mtr (wrote ++ [MConnect false])).
Proof. apply mst_hist. legal_ops. Qed.
Lemma memA_ok : backend_ok memA.
Proof. eapply mem_backend_ok; [|exact wrote_hist|exact memA_speaks]. vm_compute. reflexivity. Qed.
Lemma memOff_ok : backend_ok memOff.
Proof. eapply mem_backend_ok; [|exact off_hist|]; [vm_compute; reflexivity|]. eapply C49_backend_exists; [vm_compute; reflexivity|exact off_hist]. Qed.
Definition qs_mem : list request := [QLookup memA 1 PropsMem3.nA; QOpendir memA 1].
Lemma qs_mem_ok : Forall q_ok qs_mem.
Proof. repeat (apply Forall_cons; split; [exact memA_ok|]). constructor. Qed.
(** inode 2 is /a: the hypotheses of the theorems in the state before its listing and after it *)
Definition sM : fstate := sS qs_mem.
Definition sM1 : fstate := next sM (QOpendir memA 2).
Example C49_sample_holds : hist (sW qs_mem) sM (sK qs_mem) (sH qs_mem) /\ kdir (sK qs_mem) 2 /\ enough (sW qs_mem) sM (QOpendir memA 2) /\ asked sM 2 = Some (spell [PropsMem3.nA]) /\
  at_path (mst wrote) [PropsMem3.nA] 1 /\ directory (mst wrote) 1 /\ handles sM (QOpendir memA 2) [ROpen] sM1 /\ component PropsMem3.nF /\ good_name PropsMem3.nF /\ asked sM1 2 = Some (spell [PropsMem3.nA]) /\
  klegal (sK qs_mem) sM1 (QLookup memOff 2 PropsMem3.nF) /\ b_lstat memOff 0 (spell [PropsMem3.nA] ++ [47] ++ PropsMem3.nF) = Err ENOTCONN /\
  (exists c a, out sM1 (QLookup memOff 2 PropsMem3.nF) = Some ([REntry c a], false) /\ a_size a = 8) /\ out sM1 (QLookup memOff 2 PropsMem3.nG) = Some ([RErr ENOENT], false).
Proof.
  split; [apply sess_hist; exact qs_mem_ok|]. assert (Hk : kdir (sK qs_mem) 2) by (apply kdirb_ok; vm_compute; reflexivity). split; [exact Hk|]. split; [vm_compute; reflexivity|]. split; [vm_compute; reflexivity|].
  split; [exact at_a|]. split; [do 3 eexists; vm_compute; reflexivity|]. split; [apply handles_one; vm_compute; reflexivity|]. split; [apply comp1; discriminate|].
  split; [split; [cbn; lia|split; apply (bool_decide_eq_true_1 _); vm_compute; reflexivity]|]. split; [vm_compute; reflexivity|]. split; [split; [exact Hk|exact memOff_ok]|]. split; [vm_compute; reflexivity|].
  split; [do 2 eexists; split; vm_compute; reflexivity|vm_compute; reflexivity].
Qed.

(** ** C52: the entries "." and ".." of a backend's listing *)
(** readdir(3), and so LocalDir::readdir, lists "." and ".."; opendir treats them like any other
    name: if lstat of them succeeds, they become children of the directory. *)
Theorem C52_dots_exact : forall W s k h b x pp names e0 n, hist W s k h -> klegal k s (QOpendir b x) -> enough W s (QOpendir b x) -> asked s x = Some pp -> b_opendir b (backend_path pp) = Ok (names, e0) ->
  n = DOT \/ n = DOTDOT -> exists s', handles s (QOpendir b x) [ROpen] s' /\ forall a, (exists c, lookup (s_db s') x n = Ok c /\ getattr (s_db s') c = Ok a) <-> listed b (backend_path pp) names n a.
Proof.
  intros W s k h b x pp names e0 n H Hl Hen Hask Hb Hn. destruct (C41_sync W s k h b x pp names e0 H Hl Hen Hask Hb) as (s' & Hh & _ & Hiff). exists s'. split; [exact Hh|]. intros a. rewrite Hiff. split; [tauto|]. intros Hli. split; [|exact Hli].
  destruct Hn as [->| ->]; (split; [cbn; lia|split; apply (bool_decide_eq_true_1 _); vm_compute; reflexivity]).
Qed.
(** With the in-memory backend they do not, because its tree does not have them. *)
Theorem C52_in_memory : forall lim ord m tr b W s k h x comps d n, lim < 2 ^ 63 -> enumerates ord -> mhist lim ord m tr -> speaks_for lim ord m b -> m_conn m = true ->
  hist W s k h -> kdir k x -> enough W s (QOpendir b x) -> asked s x = Some (spell comps) -> Forall component comps -> at_path m comps d -> directory m d ->
  n = DOT \/ n = DOTDOT -> ~ has_entry m d n -> exists s', handles s (QOpendir b x) [ROpen] s' /\ forall c a, lookup (s_db s') x n = Ok c -> getattr (s_db s') c <> Ok a.
Proof.
  intros lim ord m tr b W s k h x comps d n Hlim Hord Hm Hb Hc H Hk Hen Hask Hcs Hd Hdir Hn Hno. destruct (C49_opendir lim ord m tr b Hlim Hord Hm Hb Hc W s k h x comps d H Hk Hen Hask Hcs Hd Hdir) as (s' & Hh & _ & Hiff). exists s'. split; [exact Hh|]. intros c a Hl Hg.
  assert (Hcomp : component n) by (destruct Hn as [->| ->]; (split; [discriminate|]; apply (bool_decide_eq_true_1 _); vm_compute; reflexivity)). assert (Hgood : good_name n) by (destruct Hn as [->| ->]; (split; [cbn; lia|split; apply (bool_decide_eq_true_1 _); vm_compute; reflexivity])).
  destruct (proj1 (Hiff n a Hcomp Hgood)) as (y & nd & Hy & _); [eauto|]. apply Hno. destruct (at_dir_prefix m comps n [] y Hy) as (d' & Hd' & He). rewrite (at_unique _ _ _ _ Hd Hd'). exact He.
Qed.
Print Assumptions C52_in_memory.
(** A local directory with one file: afterwards "." is a child of /d, with its own inode number,
    and it is a directory again. *)
Definition pDot : bytes := [47; 100; 47; 46]. Definition pDotdot : bytes := [47; 100; 47; 46; 46].
Definition localish : backend :=
  finite [(pD, dirA); (pDF, fileA 20); (pDot, dirA); (pDotdot, dirA)] [] [(pD, ([DOT; DOTDOT; FsPlay.nF], 0))].
Lemma localish_ok : backend_ok localish.
Proof. finite_oks. Qed.
Definition qs_dots : list request := [QLookup localish 1 nD; QOpendir localish 2].
Theorem C52_refuted : exists W s k h c, hist W s k h /\ lookup (s_db s) 2 DOT = Ok c /\ c <> 2 /\ getattr (s_db s) c = Ok dirA /\ asked s c = Some pDot.
Proof.
  exists (sW qs_dots), (sS qs_dots), (sK qs_dots), (sH qs_dots), 3. split; [apply sess_hist; repeat (apply Forall_cons; split; [exact localish_ok|]); constructor|].
  split; [vm_compute; reflexivity|]. split; [discriminate|]. split; vm_compute; reflexivity.
Qed.
(** The kernel then sees two entries "." in a listing of the directory: its own and the child. *)
Theorem C52_twice_refuted : exists W s k h, hist W s k h /\ readdir (s_db s) 2 0 = Ok (2, DOT) /\ exists x, readdir (s_db s) 2 2 = Ok (x, DOTDOT) /\ exists c, readdir (s_db s) 2 x = Ok (c, DOT) /\ c <> 2.
Proof.
  exists (sW qs_dots), (sS qs_dots), (sK qs_dots), (sH qs_dots). split; [apply sess_hist; repeat (apply Forall_cons; split; [exact localish_ok|]); constructor|].
  split; [vm_compute; reflexivity|]. exists 1. split; [vm_compute; reflexivity|]. exists 3. split; [vm_compute; reflexivity|discriminate].
Qed.
