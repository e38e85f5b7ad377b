(** Concrete histories of the in-memory backend: the hypotheses of C43 and C44 are met, and
    where the claims stop being true. *)
From Verif Require Export PropsMem2.

Definition ord0 (kids : gmap bytes Z) : list bytes := (map_to_list kids).*1.
Lemma ord0_ok : enumerates ord0.
Proof. intros kids. reflexivity. Qed.
Definition LIM : Z := 2 ^ 40.
Fixpoint mplay (m : mem) (tr : list mev) (os : list mop) : outcome (mem * list mev) :=
  match os with
  | [] => Done (m, tr)
  | o :: os => dlet (r, m') := mstep LIM ord0 m o in mplay m' (tr ++ [Mev m o r]) os
  end.
Lemma mplay_hist os : Forall mlegal os -> forall m tr m' tr', mhist LIM ord0 m tr -> mplay m tr os = Done (m', tr') -> mhist LIM ord0 m' tr'.
Proof.
  induction 1 as [|o os Ho Hos IH]; intros m tr m' tr' H E; cbn [mplay] in E.
  - injection E as <- <-. exact H.
  - destruct (mstep LIM ord0 m o) as [[r m1]| | |] eqn:Es; cbn [obind] in E; try discriminate E. eapply IH; [|exact E]. econstructor; eassumption.
Qed.
Definition mst (os : list mop) : mem := match mplay mem0 [] os with Done (m, _) => m | _ => mem0 end.
Definition mtr (os : list mop) : list mev := match mplay mem0 [] os with Done (_, tr) => tr | _ => [] end.
Lemma mst_hist os : Forall mlegal os -> mhist LIM ord0 (mst os) (mtr os).
Proof.
  intros Ho. unfold mst, mtr. destruct (mplay mem0 [] os) as [[m tr]| | |] eqn:E; [|constructor..]. eapply mplay_hist; [exact Ho|constructor|exact E].
Qed.
Ltac legal_ops := repeat (constructor; [cbn [mlegal]; repeat split; try (vm_compute; reflexivity); try (vm_compute; discriminate)|]); constructor.

(** A tree: /a is a directory with a file f and a link l; /g is a file. *)
Definition nA : bytes := [97]. Definition nF : bytes := [102]. Definition nL : bytes := [108]. Definition nG : bytes := [103].
Definition tree : list mop := [MEmplace 0 nA KDir; MEmplace 1 nF KFile; MEmplace 1 nL (KLink [120; 121]); MEmplace 0 nG KFile].
Definition wrote : list mop := tree ++ [MOpen [47; 97; 47; 102]; MOpen [47; 97; 47; 102]; MPwrite 0 [1; 2; 3] 5; MPwrite 1 [9; 9] 4].
Lemma wrote_hist : mhist LIM ord0 (mst wrote) (mtr wrote).
Proof. apply mst_hist. legal_ops. Qed.
(** Readers of a state, so that samples compute small values. *)
Definition mres_of (m : mem) (o : mop) : option mres := match mstep LIM ord0 m o with Done (r, _) => Some r | _ => None end.
Definition mnext (m : mem) (o : mop) : mem := match mstep LIM ord0 m o with Done (_, m') => m' | _ => m end.
Lemma mres_step m o r : mres_of m o = Some r -> mstep LIM ord0 m o = Done (r, mnext m o).
Proof. unfold mres_of, mnext. destruct (mstep LIM ord0 m o) as [[r' m']| | |]; intros E; try discriminate E. injection E as ->. reflexivity. Qed.
Definition reader (o : mop) : bool := match o with MLstat _ | MReadlink _ | MFstat _ | MPread _ _ _ => true | _ => false end.
Lemma with_node_read m p fail f r m' : with_node m p fail (fun _ n => Done (f n, m)) = Done (r, m') -> m' = m.
Proof.
  unfold with_node. destruct (negb (m_conn m)); [intros E; injection E; auto|]. destruct (mfind m p) as [[id|e]| | |]; cbn [obind]; intros E; try discriminate E; [|injection E; auto]. destruct (m_nodes m !! id); [injection E; auto|discriminate E].
Qed.
Lemma mres_read m o r : reader o = true -> mres_of m o = Some r -> mstep LIM ord0 m o = Done (r, m).
Proof.
  intros Ho Er. apply mres_step in Er. rewrite Er. replace (mnext m o) with m; [reflexivity|]. revert Er. generalize (mnext m o). intros m' Er. symmetry. destruct o as [d n k|d n|x a|c|p|p|p|p|h|h c off|h bu off|h]; try discriminate Ho; cbn [mstep] in Er.
  - eapply with_node_read with (f := fun n => MStat (Ok (nd_attr n))). exact Er.
  - eapply with_node_read with (f := fun n => MBytes (match nd_body n with BLink d => Ok d | _ => Err EINVAL end)). exact Er.
  - destruct (m_fh m !! h); [|discriminate Er]. destruct (m_nodes m !! z); [injection Er; auto|discriminate Er].
  - destruct (m_fh m !! h); [|discriminate Er]. destruct (m_nodes m !! z) as [[? [dat|?|?] ?]|]; try discriminate Er. destruct (f_pread dat c off); cbn [obind] in Er; try discriminate Er. injection Er; auto.
Qed.
Definition kid (m : mem) (d : Z) (nm : bytes) : option Z := match m_nodes m !! d with Some (Nd _ (BDir k) _) => k !! nm | _ => None end.
Definition is_dirb (m : mem) (d : Z) : bool := match m_nodes m !! d with Some (Nd _ (BDir _) _) => true | _ => false end.
Definition liveb (m : mem) (d : Z) : bool := match m_nodes m !! d with Some _ => true | None => false end.
Lemma liveb_ok m d : liveb m d = true -> exists n, m_nodes m !! d = Some n.
Proof. unfold liveb. destruct (m_nodes m !! d); [eauto|discriminate]. Qed.
Lemma is_dirb_ok m d : directory m d <-> is_dirb m d = true.
Proof. unfold directory, is_dirb. split; [intros (a & k & ow & ->); reflexivity|]. destruct (m_nodes m !! d) as [[a [?|?|k] ow]|]; try discriminate. eauto. Qed.
Lemma kid_at m comps d nm c : at_path m comps d -> kid m d nm = Some c -> at_path m (comps ++ [nm]) c.
Proof. intros H. unfold kid. destruct (m_nodes m !! d) as [[a [?|?|k] ow]|] eqn:E; try discriminate. intros Ek. econstructor; eassumption. Qed.
Lemma kid_entry m d nm : has_entry m d nm <-> kid m d nm <> None.
Proof.
  unfold has_entry, kid. split; [intros (a & k & ow & c & -> & ->); discriminate|]. destruct (m_nodes m !! d) as [[a [?|?|k] ow]|]; try contradiction. destruct (k !! nm) as [c|] eqn:E; [|contradiction]. intros _. exists a, k, ow, c. auto.
Qed.
(** two overlapping writes through different handles, and a hole *)
Example C43_sample_holds : mstep LIM ord0 (mst wrote) (MPread 0 100 2) = Done (MBytes (Ok [0; 0; 9; 9; 2; 3]), mst wrote) /\ m_fh (mst wrote) !! 0 = Some 2 /\ m_fh (mst wrote) !! 1 = Some 2 /\
  (exists n, m_nodes (mst wrote) !! 2 = Some n) /\ writes (mtr wrote) 2 = [(4, [9; 9]); (5, [1; 2; 3])] /\ mlegal (MPread 0 100 2) /\ alive (mst wrote) (MPread 0 100 2).
Proof.
  assert (Hl : exists n, m_nodes (mst wrote) !! 2 = Some n) by (apply liveb_ok; vm_compute; reflexivity). assert (Hh : m_fh (mst wrote) !! 0 = Some 2) by (vm_compute; reflexivity).
  split; [apply mres_read; [reflexivity|vm_compute; reflexivity]|]. split; [exact Hh|]. split; [vm_compute; reflexivity|]. split; [exact Hl|]. split; [vm_compute; reflexivity|]. split; [cbn; lia|]. exists 2. split; [exact Hh|]. destruct Hl as [n ->]. discriminate.
Qed.
Definition touchesb (id : Z) (e : mev) : bool := match e_op e with MUpdateAttr x _ => x =? id | _ => false end.
Lemma untouched id tr : List.existsb (touchesb id) tr = false -> forall e, e ∈ tr -> ~ touches id e.
Proof.
  intros H e He Ht. apply elem_of_list_In in He. assert (Hx : List.existsb (touchesb id) tr = true); [|rewrite Hx in H; discriminate H]. apply existsb_exists. exists e. split; [exact He|]. unfold touches, touchesb in *. destruct (e_op e); try contradiction. subst. apply Z.eqb_refl.
Qed.
Example C43_size_sample_holds : exists a, mstep LIM ord0 (mst wrote) (MFstat 1) = Done (MStat (Ok a), mst wrote) /\ a_size a = 8 /\ forall e, e ∈ mtr wrote -> ~ touches 2 e.
Proof.
  eexists. split; [apply mres_read; [reflexivity|vm_compute; reflexivity]|]. split; [reflexivity|]. apply untouched. vm_compute. reflexivity.
Qed.
(** Findings.  A write of zero bytes makes the file longer. *)
Theorem C43_zero_write_refuted : exists m tr h id m', mhist LIM ord0 m tr /\ m_fh m !! h = Some id /\ mlegal (MPwrite h [] 10) /\ mstep LIM ord0 m (MPwrite h [] 10) = Done (MCount (Ok 0), m') /\
  mstep LIM ord0 m (MPread h 10 8) = Done (MBytes (Ok []), m) /\ mstep LIM ord0 m' (MPread h 10 8) = Done (MBytes (Ok [0; 0]), m').
Proof.
  exists (mst wrote), (mtr wrote), 0, 2, (mnext (mst wrote) (MPwrite 0 [] 10)). split; [exact wrote_hist|]. split; [vm_compute; reflexivity|]. split; [cbn; lia|]. split; [apply mres_step; vm_compute; reflexivity|]. split; (apply mres_read; [reflexivity|vm_compute; reflexivity]).
Qed.
Definition crashes (m : mem) (o : mop) : bool := match mstep LIM ord0 m o with Crash => true | _ => false end.
Lemma crashes_ok m o : crashes m o = true -> mstep LIM ord0 m o = Crash.
Proof. unfold crashes. destruct (mstep LIM ord0 m o) as [[? ?]| | |]; try discriminate. reflexivity. Qed.
(** A file removed while it is open: using the handle is undefined behaviour. *)
Theorem C43_removed_refuted : exists m tr h id, mhist LIM ord0 m tr /\ m_fh m !! h = Some id /\ mstep LIM ord0 m (MPread h 1 0) = Crash.
Proof.
  exists (mst (wrote ++ [MRemove 1 nF])), (mtr (wrote ++ [MRemove 1 nF])), 0, 2. split; [apply mst_hist; legal_ops|]. split; [vm_compute; reflexivity|apply crashes_ok; vm_compute; reflexivity].
Qed.
(** Counts beyond SSIZE_MAX: the sum of offset and count wraps and memcpy leaves the data. *)
Theorem C43_wrap_refuted : exists m tr h, mhist LIM ord0 m tr /\ alive m (MPread h (2 ^ 64 - 1) 1) /\ mstep LIM ord0 m (MPread h (2 ^ 64 - 1) 1) = Crash.
Proof.
  exists (mst wrote), (mtr wrote), 0. split; [exact wrote_hist|]. split; [exists 2; split; [vm_compute; reflexivity|]|apply crashes_ok; vm_compute; reflexivity]. destruct (liveb_ok (mst wrote) 2) as [n ->]; [vm_compute; reflexivity|discriminate].
Qed.
(** emplace under a name that exists returns a reference to a node that is already gone. *)
Theorem C43_emplace_refuted : exists m tr x m', mhist LIM ord0 m tr /\ mstep LIM ord0 m (MEmplace 0 nA KDir) = Done (MRef x, m') /\ m_nodes m' !! x = None.
Proof.
  exists (mst wrote), (mtr wrote), 5, (mnext (mst wrote) (MEmplace 0 nA KDir)). split; [exact wrote_hist|]. split; [apply mres_step; vm_compute; reflexivity|]. vm_compute. reflexivity.
Qed.

(** *** C44 *)
Lemma at_a : at_path (mst wrote) [nA] 1.
Proof. apply (kid_at _ [] 0); [constructor|vm_compute; reflexivity]. Qed.
Lemma at_af : at_path (mst wrote) [nA; nF] 2.
Proof. apply (kid_at _ [nA] 1); [exact at_a|vm_compute; reflexivity]. Qed.
Lemma comp1 x : x <> 47 -> component [x].
Proof. intros Hx. split; [discriminate|]. rewrite elem_of_list_singleton. congruence. Qed.
Lemma spelled_af : spelled [47; 97; 47; 102] [nA; nF] false.
Proof. apply (sp_plain [nA; nF]); [discriminate|]. repeat (constructor; [apply comp1; discriminate|]). constructor. Qed.
Lemma spelled_af2 : spelled [47; 97; 47; 102; 47] [nA; nF] true.
Proof. apply (sp_slash [nA; nF]); [discriminate|]. repeat (constructor; [apply comp1; discriminate|]). constructor. Qed.
Example C44_found_sample_holds : m_conn (mst wrote) = true /\ spelled [47; 97; 47; 102] [nA; nF] false /\ at_path (mst wrote) [nA; nF] 2 /\
  exists a, mstep LIM ord0 (mst wrote) (MLstat [47; 97; 47; 102]) = Done (MStat (Ok a), mst wrote) /\ a_size a = 8.
Proof. split; [vm_compute; reflexivity|]. split; [exact spelled_af|]. split; [exact at_af|]. eexists. split; [apply mres_read; [reflexivity|vm_compute; reflexivity]|reflexivity]. Qed.
Example C44_missing_sample_holds : missing (mst wrote) [nA; nG; nF] /\ mres_of (mst wrote) (MOpendir [47; 97; 47; 103; 47; 102]) = Some (MHandle (Err ENOENT)).
Proof.
  split; [|vm_compute; reflexivity]. exists [nA], nG, [nF], 1. split; [reflexivity|]. split; [exact at_a|]. split; [apply is_dirb_ok; vm_compute; reflexivity|]. rewrite kid_entry. intros Hk. apply Hk. vm_compute. reflexivity.
Qed.
Example C44_blocked_sample_holds : blocked (mst wrote) [nA; nF; nG] /\ mres_of (mst wrote) (MOpen [47; 97; 47; 102; 47; 103]) = Some (MHandle (Err ENOTDIR)) /\
  spelled [47; 97; 47; 102; 47] [nA; nF] true /\ ~ directory (mst wrote) 2 /\ mres_of (mst wrote) (MLstat [47; 97; 47; 102; 47]) = Some (MStat (Err ENOTDIR)).
Proof.
  assert (Hd : ~ directory (mst wrote) 2). { rewrite is_dirb_ok. assert (E : is_dirb (mst wrote) 2 = false) by (vm_compute; reflexivity). rewrite E. discriminate. }
  split; [exists [nA; nF], nG, [], 2; split; [reflexivity|]; split; [exact at_af|exact Hd]|]. split; [vm_compute; reflexivity|]. split; [exact spelled_af2|]. split; [exact Hd|vm_compute; reflexivity].
Qed.
Example C44_malformed_sample_holds : malformed [47; 47; 97] [] /\ mres_of (mst wrote) (MLstat [47; 47; 97]) = Some (MStat (Err EINVAL)) /\ malformed [] [] /\ mres_of (mst wrote) (MLstat []) = Some (MStat (Err EINVAL)).
Proof. split; [apply (mf_empty [] [97]); constructor|]. split; [vm_compute; reflexivity|]. split; [apply mf_start; discriminate|vm_compute; reflexivity]. Qed.
Example C44_listing_sample_holds : exists m', mstep LIM ord0 (mst wrote) (MOpendir [47; 97]) = Done (MHandle (Ok 2), m') /\ spelled [47; 97] [nA] false.
Proof. eexists. split; [apply mres_step; vm_compute; reflexivity|]. apply (sp_plain [nA]); [discriminate|]. constructor; [apply comp1; discriminate|constructor]. Qed.
