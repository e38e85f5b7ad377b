(** Property C83: what was removed does not stay in the cache. *)
From Verif Require Export FsPaths.
From Verif Require Import PropsFs.

(** ** Specification *)
Definition stored (s : fstate) (x : Z) : Prop := exists a, getattr (s_db s) x = Ok a.
(** It can be reached by looking up names, one after the other, from [y]. *)
Definition reached (s : fstate) (y x : Z) : Prop := exists names, walk (s_db s) y names x.
(** Whatever is stored has a path, or something that is held (referenced) leads to it. *)
Definition tidy (s : fstate) : Prop :=
  forall x, stored s x -> reached s ROOT_INO x \/ exists y, 0 < refcount (s_refs s) y /\ reached s y x.

(** ** Removed inodes *)
Definition OR (d : db) (r : refs) : Prop := forall x, x ∈ d_orphans d -> 0 < refcount r x.
Lemma top d : Inv d -> forall x i, d_inodes d !! x = Some i -> exists y names, walk d y names x /\ (y = 1 \/ y ∈ d_orphans d).
Proof.
  intros H x. assert (Hx0 : forall i, d_inodes d !! x = Some i -> 0 <= x) by (intros i Hi; destruct (inode_range _ _ _ H Hi); lia).
  destruct (Z.lt_ge_cases x 0) as [Hn|Hn]; [intros i Hi; specialize (Hx0 i Hi); lia|]. clear Hx0. revert x Hn.
  apply (Zlt_0_ind (fun x => forall i, d_inodes d !! x = Some i -> exists y names, walk d y names x /\ (y = 1 \/ y ∈ d_orphans d))). intros x IH _ i Hi.
  destruct (decide (x = 1)) as [->|Hne]; [exists 1, []; split; [reflexivity|auto]|]. destruct (decide (i_parent i = 0)) as [Hz|Hz]; [exists x, []; split; [reflexivity|right; eapply inv_parent0; eassumption]|].
  destruct (inv_parent _ H _ _ Hi Hz) as (e & He). destruct (inv_treei _ H _ _ _ He) as (_ & _ & Hr & (j & Hj & _) & _).
  destruct (IH (i_parent i) ltac:(lia) j Hj) as (y & names & Hw & Hy). exists y, (names ++ [de_name e]). split; [|exact Hy]. apply walk_app. exists (i_parent i). split; [exact Hw|].
  cbn [walk]. exists x. split; [|reflexivity]. apply lookup_treei; [exact H|eapply inode_range; eassumption|eauto].
Qed.
Lemma orphans_tidy s : Inv (s_db s) -> OR (s_db s) (s_refs s) -> tidy s.
Proof.
  intros H HO x (a & Ha). apply getattr_Ok in Ha as (i & Hi & _). destruct (top _ H _ _ Hi) as (y & names & Hw & [->|Hy]); [left; exists names; exact Hw|right; exists y; split; [apply HO, Hy|exists names; exact Hw]].
Qed.
Lemma tidy_orphans s : Inv (s_db s) -> (forall x, 0 < refcount (s_refs s) x -> d_inodes (s_db s) !! x <> None) -> tidy s -> OR (s_db s) (s_refs s).
Proof.
  intros H Hheld HT x Hx. destruct (inv_orphan _ H _ Hx) as (i & Hi & Hp).
  assert (Hno : forall p e, d_treei (s_db s) !! (p, x) = Some e -> False).
  { intros p e He. destruct (inv_treei _ H _ _ _ He) as (_ & _ & Hr & _ & (j & Hj & Hpj) & _). rewrite Hi in Hj. injection Hj as <-. lia. }
  destruct (HT x) as [(names & Hw)|(y & Hy & names & Hw)]; [exists (i_attr i); apply getattr_Ok; eauto|exfalso|].
  - destruct (walk_last _ _ _ H Hw) as [[-> _]|(c & n & p & e & _ & _ & He & _)]; [exact (inv_root_orph _ H Hx)|eapply Hno; exact He].
  - destruct names as [|n names _] using rev_ind; [cbn [walk] in Hw; subst; exact Hy|]. exfalso. apply walk_app in Hw as (z & Hw & (z' & Hl & Hz)). cbn [walk] in Hz. subst z'.
    assert (Hu : u64 z). { specialize (Hheld _ Hy). destruct (d_inodes (s_db s) !! y) as [iy|] eqn:Ey; [|contradiction]. eapply walk_u64; [exact H| |exact Hw]. eapply inode_range; eassumption. }
    apply lookup_treei in Hl as (e & He & _); [|assumption..]. eapply Hno; exact He.
Qed.
Lemma OR_refs d r r' : (forall x, refcount r x <= refcount r' x) -> OR d r -> OR d r'.
Proof. intros Hr HO x Hx. specialize (HO x Hx). specialize (Hr x). lia. Qed.
Lemma emplace_or t p n a x t1 : TInv t -> is_dir (t_db t) p -> room (t_db t) -> emplace t p n a = Done (x, t1) ->
  (OR (t_db t) (t_refs t) -> OR (t_db t1) (t_refs t1)) /\ (forall c, x = Ok c -> d_inodes (t_db t) !! c = None -> OR (t_db t1) (t_refs t1)).
Proof.
  intros HT Hd Hr E. destruct (emplace_spec t p n a HT Hd Hr) as [(err & Hcn & E')|[(Hv & e & i & He & Hi & Hty & E' & HT')|(Hv & Hty & k & R & Hk & Hfresh & Hd1 & HR & E' & HT')]]; rewrite E' in E; injection E as <- <-; cbn [t_db t_refs].
  - split; [auto|discriminate].
  - split; [auto|]. intros c [= <-] Hc. congruence.
  - assert (HO : OR (cleaned R (added p n a k (detached_name (t_db t) p n))) (doom_all R (t_refs t))) by (intros y Hy; rewrite refcount_doom_all; eapply cleaned_no_gone; eassumption). auto.
Qed.
Lemma unlink_or t c x t1 : TInv t -> unlink_ino t c = Done (x, t1) ->
  (OR (t_db t) (t_refs t) -> OR (t_db t1) (t_refs t1)) /\ (c <> 1 -> d_inodes (t_db t) !! c <> None -> OR (t_db t1) (t_refs t1)).
Proof.
  intros HT E. destruct (unlink_ino_spec t c HT) as [(-> & E')|[(Hn & E')|(d1 & _ & Hi1 & R & HR & E' & _)]]; rewrite E' in E; injection E as <- <-; cbn [t_db t_refs]; [split; [auto|contradiction]..|].
  assert (HO : OR (cleaned R d1) (doom_all R (t_refs t))) by (intros y Hy; rewrite refcount_doom_all; eapply cleaned_no_gone; eassumption). auto.
Qed.
Lemma hist_tidy W s k h : hist W s k h -> tidy s <-> OR (s_db s) (s_refs s).
Proof.
  intros Hh. destruct (hist_inv _ _ _ _ Hh) as (HF & _). pose proof (fi_dr _ _ _ HF) as Hdr. split; [apply tidy_orphans; [apply Hdr|apply (dr_held _ _ _ Hdr)]|apply orphans_tidy; apply Hdr].
Qed.

(** ** C83 *)
(** When the cache is opened, everything in it has a path. *)
Theorem C83_opened : forall W s k h root sent s1 x, hist W s k h -> handles s (QRestart root) sent s1 -> stored s1 x -> reached s1 ROOT_INO x.
Proof.
  intros W s k h root sent s1 x Hh (o & E & _) (a & Ha). pose proof (hist_Inv _ _ _ _ Hh) as Hi. cbn [fstep] in E.
  destruct (open_cache_spec root (s_db s)) as (R & _ & E' & HI & _ & Ho); [rewrite init_db_id; assumption|]. rewrite E' in E. cbn [obind] in E. injection E as <- _. cbn [s_db] in Ha.
  apply getattr_Ok in Ha as (i & Hx & _). destruct (top _ HI _ _ Hx) as (y & names & Hw & [->|Hy]); [exists names; exact Hw|]. rewrite Ho in Hy. set_solver.
Qed.
Print Assumptions C83_opened.
(** The requests that may leave something behind: giving back the last reference to a removed
    inode, and a listing that did not confirm an entry. *)
Definition leaves_behind (q : request) : Prop :=
  match q with QForget _ _ | QForgetMulti _ | QOpendir _ _ => True | _ => False end.
Lemma lookup_tidy W s k h b p n s' l : hist W s k h -> klegal k s (QLookup b p n) -> enough W s (QLookup b p n) -> h_lookup s b p n = Done (s', l) ->
  (OR (s_db s) (s_refs s) -> OR (s_db s') (s_refs s')) /\
  (forall c a, l = [REntry c a] -> ~ stored s c -> OR (s_db s') (s_refs s')) /\
  (forall c e, l = [RErr e] -> lookup (s_db s) p n = Ok c -> lookup (s_db s') p n <> Ok c -> OR (s_db s') (s_refs s')).
Proof.
  intros Hh [Hk Hb] Hen E. destruct (hist_inv _ _ _ _ Hh) as (HF & HA & HW). unfold enough in Hen. cbn [weight] in Hen.
  pose proof (fi_dr _ _ _ HF) as Hdr. pose proof (dr_inv _ _ _ Hdr) as Hi. pose proof (kdir_is_dir _ _ _ _ HF Hk) as Hdir.
  destruct (h_lookup_total W s k b p n HF Hk ltac:(lia)) as (s2 & l2 & E2 & Hc). rewrite E2 in E. injection E as -> ->.
  assert (HT : TInv (begun s)) by (eapply way_tinv; apply way_begin; exact Hdr).
  destruct Hc as [Hw|comps st e Hw El He|comps st c t1 t2 Hw El Ee El2|comps c a t2 Hw El Hlo Hga El2|comps Hw El _ _|comps Hw El _ _|comps e Hw El _ _|comps e x t1 Hw El He Eu];
    try (split; [auto|split; [discriminate|intros c0 e0 _ H1 H2; contradiction]]).
  - assert (Hroom : room (t_db (begun s))) by (eapply way_room; [apply way_begin; exact Hdr|lia]). destruct (emplace_or _ _ _ _ _ _ HT Hdir Hroom Ee) as [H1 H2].
    destruct (way_emplace _ _ _ _ _ _ _ _ _ (way_begin _ _ _ Hdr) Hdir ltac:(lia) Ee) as [W1 R1]. destruct (lock_refcount _ _ _ _ (wy_dr _ _ _ _ W1) ltac:(lia) El2) as [Ed R2].
    assert (Hup : OR (t_db t1) (t_refs t1) -> OR (s_db (after t2 s)) (s_refs (after t2 s))). { intros HO. cbn [s_db s_refs after set_dbr]. rewrite Ed. eapply OR_refs; [|exact HO]. intros y. rewrite R2. destruct (c =? y); lia. }
    split; [intros HO; apply Hup, H1; exact HO|]. split; [|discriminate]. intros c0 a0 [= <- _] Hs. apply Hup. apply (H2 c eq_refl). change (t_db (begun s)) with (s_db s).
    destruct (d_inodes (s_db s) !! c) as [i|] eqn:Ei; [|reflexivity]. destruct Hs. exists (i_attr i). apply getattr_Ok. eauto.
  - destruct (lock_refcount (begun s) _ _ W Hdr ltac:(lia) El2) as [Ed R2]. change (t_db (begun s)) with (s_db s) in Ed.
    split; [intros HO; cbn [s_db s_refs after set_dbr]; rewrite Ed; eapply OR_refs; [|exact HO]; intros y; rewrite R2; change (t_refs (begun s)) with (s_refs s); destruct (c =? y); lia|].
    split; [|discriminate]. intros c0 a0 [= <- _] Hs. destruct Hs. exists a. exact Hga.
  - cbn [s_db s_refs after set_dbr]. unfold unlink_name in Eu. change (t_db (begun s)) with (s_db s) in Eu. destruct (d_treen (s_db s) !! (p, n)) as [en|] eqn:Hen2.
    + destruct (unlink_or _ _ _ _ HT Eu) as [H1 H2]. split; [exact H1|]. destruct (treen_child _ _ _ _ Hi Hen2) as (Hti & _ & i & Hx & _).
      assert (HO : OR (t_db t1) (t_refs t1)). { apply H2; [|change (t_db (begun s)) with (s_db s); congruence]. apply (inv_treei _ Hi _ _ _ Hti). } split; auto.
    + injection Eu as _ <-. split; [auto|]. split; [discriminate|]. intros c0 e0 _ H1 H2. contradiction.
Qed.
Lemma readlink_tidy W s k h b x s' l : hist W s k h -> h_readlink s b x = Done (s', l) ->
  (OR (s_db s) (s_refs s) -> OR (s_db s') (s_refs s')) /\ (reached s 1 x -> ~ reached s' 1 x -> OR (s_db s') (s_refs s')).
Proof.
  intros Hh E. destruct (hist_inv _ _ _ _ Hh) as (HF & HA & HW). pose proof (fi_dr _ _ _ HF) as Hdr. pose proof (dr_inv _ _ _ Hdr) as Hi.
  destruct (h_readlink_total W s k b x HF) as (s2 & l2 & E2 & Hc). rewrite E2 in E. injection E as -> ->.
  assert (HT : TInv (begun s)) by (eapply way_tinv; apply way_begin; exact Hdr).
  destruct Hc as [Hw|comps link r t1 Hw El Ew|comps link Hw El _|comps e Hw El _|comps e r t1 Hw El He Eu]; try (split; [auto|contradiction]).
  - assert (Ho : d_orphans (t_db t1) = d_orphans (s_db s) /\ t_refs t1 = s_refs s /\ forall y c2 z, walk (s_db s) y c2 z -> walk (t_db t1) y c2 z).
    { unfold writelink in Ew. change (t_db (begun s)) with (s_db s) in Ew. destruct (d_inodes (s_db s) !! x) as [i0|]; [|injection Ew as _ <-; auto]. destruct (negb _); injection Ew as _ <-; [auto|]. split; [reflexivity|]. split; [reflexivity|].
      intros y c2. revert y. induction c2 as [|m c2 IH]; intros y z Hz; [exact Hz|]. cbn [walk] in *. destruct Hz as (w & Hl & Hz). exists w. split; [exact Hl|apply IH; exact Hz]. }
    destruct Ho as (Ho & Hr & Hk). cbn [s_db s_refs after set_dbr]. unfold OR. rewrite Ho, Hr. split; [auto|]. intros (c2 & Hw2) Hn. destruct Hn. exists c2. apply Hk. exact Hw2.
  - destruct (unlink_or _ _ _ _ HT Eu) as [H1 H2]. cbn [s_db s_refs after set_dbr]. split; [exact H1|]. intros (c2 & Hw2) Hn. destruct (walk_last _ _ _ Hi Hw2) as [[-> ->]|(c & n & p & e1 & _ & _ & He1 & _)].
    + destruct Hn. exists []. reflexivity.
    + destruct (inv_treei _ Hi _ _ _ He1) as (_ & Hx1 & _ & _ & (i & Hx & _) & _). apply H2; [exact Hx1|]. change (t_db (begun s)) with (s_db s). congruence.
Qed.
(** All other requests leave a tidy cache tidy. *)
Theorem C83_kept : forall W s k h q sent s1, hist W s k h -> klegal k s q -> enough W s q -> ~ leaves_behind q -> handles s q sent s1 -> tidy s -> tidy s1.
Proof.
  intros W s k h q sent s1 Hh Hl Hen Hq (o & E & Es) HT. assert (Hh1 : hist (W + weight s q) s1 (kstep k q sent) (h ++ [Ev s q sent])) by (econstructor; eassumption).
  apply (hist_tidy _ _ _ _ Hh) in HT. apply (hist_tidy _ _ _ _ Hh1). destruct (hist_inv _ _ _ _ Hh) as (HF & HA & HW).
  destruct q as [b p n|x n|l|x|b x|b x|x size off|x|id x|id size off|tag|root]; cbn [leaves_behind] in Hq; try tauto; cbn [fstep] in E.
  - destruct (h_lookup s b p n) as [[s' l]| | |] eqn:Eh; try discriminate. cbn [obind] in E. injection E as -> _. exact (proj1 (lookup_tidy _ _ _ _ _ _ _ _ _ Hh Hl Hen Eh) HT).
  - unfold h_getattr in E. destruct (getattr (s_db s) x); injection E as <- _; exact HT.
  - destruct (h_readlink s b x) as [[s' l]| | |] eqn:Eh; try discriminate. cbn [obind] in E. injection E as -> _. exact (proj1 (readlink_tidy _ _ _ _ _ _ _ _ Hh Eh) HT).
  - destruct (h_readdir s x size off) as [[s2 l]| | |] eqn:Eh; try discriminate. cbn [obind] in E. injection E as <- _. unfold h_readdir in Eh. destruct (readdir_loop _ _ _ _ _ _ _) as [[[[e a] bf] ts]| | |]; try discriminate. cbn [obind] in Eh. injection Eh as <- _. exact HT.
  - injection E as <- _. exact HT.
  - injection E as <- _. exact HT.
  - destruct (s_plus s !! id) as [[snap dir]|] eqn:Hid; [|cbn [klegal] in Hl; rewrite Hid in Hl; contradiction]. unfold enough in Hen.
    destruct (h_plus_total W s k id size off snap dir HF Hid ltac:(lia)) as (l & e & pre & post & rep & _ & _ & E2 & _ & Hr & _). rewrite E2 in E. cbn [obind] in E. injection E as <- _. cbn [s_db s_refs].
    eapply OR_refs; [|exact HT]. intros y. rewrite Hr. pose proof (uses_nonneg y (touched size pre post)). lia.
  - injection E as <- _. exact HT.
  - destruct (open_cache_spec root (s_db s)) as (R & _ & E' & HI & _ & Ho); [rewrite init_db_id; [|]; apply (dr_inv _ _ _ (fi_dr _ _ _ HF))|]. rewrite E' in E. cbn [obind] in E. injection E as <- _. cbn [s_db s_refs]. intros y Hy. rewrite Ho in Hy. set_solver.
Qed.
Print Assumptions C83_kept.
(** Whatever was left behind is gone as soon as a lookup finds something new, or finds that what
    it looked for is not there any more, or a link cannot be read any more. *)
Theorem C83_cleaned : forall W s k h q sent s1, hist W s k h -> klegal k s q -> enough W s q -> handles s q sent s1 ->
  match q with
  | QLookup b p n => (exists c a, sent = [REntry c a] /\ ~ stored s c) \/ (exists c e, sent = [RErr e] /\ lookup (s_db s) p n = Ok c /\ lookup (s_db s1) p n <> Ok c)
  | QReadlink b x => reached s ROOT_INO x /\ ~ reached s1 ROOT_INO x
  | _ => False
  end -> tidy s1.
Proof.
  intros W s k h q sent s1 Hh Hl Hen (o & E & Es) HT. assert (Hh1 : hist (W + weight s q) s1 (kstep k q sent) (h ++ [Ev s q sent])) by (econstructor; eassumption).
  apply (hist_tidy _ _ _ _ Hh1). destruct q as [b p n|x n|l|x|b x|b x|x size off|x|id x|id size off|tag|root]; try contradiction; cbn [fstep] in E.
  - destruct (h_lookup s b p n) as [[s' l]| | |] eqn:Eh; try discriminate. cbn [obind] in E. injection E as -> <-. pose proof Hl as [Hk _]. destruct (hist_inv _ _ _ _ Hh) as (HF & _). unfold enough in Hen. cbn [weight] in Hen.
    assert (Hlen : l = sent). { destruct (h_lookup_total W s k b p n HF Hk ltac:(lia)) as (s2 & l2 & E2 & Hc). rewrite E2 in Eh. injection Eh as -> ->. destruct Hc; cbn [sent_of] in Es; rewrite answer_one in Es; congruence. }
    subst l. destruct (lookup_tidy _ _ _ _ _ _ _ _ _ Hh Hl Hen Eh) as (_ & H1 & H2). destruct HT as [(c & a & -> & Hs)|(c & e & -> & Hlo & Hn)]; [eapply H1; [reflexivity|exact Hs]|eapply H2; [reflexivity|exact Hlo|exact Hn]].
  - destruct (h_readlink s b x) as [[s' l]| | |] eqn:Eh; try discriminate. cbn [obind] in E. injection E as -> _. destruct HT as [H1 H2]. exact (proj2 (readlink_tidy _ _ _ _ _ _ _ _ Hh Eh) H1 H2).
Qed.
Print Assumptions C83_cleaned.

(** *** Samples *)
Lemma untidy_ok W s k h x : hist W s k h -> bool_decide (x ∈ d_orphans (s_db s)) && (refcount (s_refs s) x =? 0) = true -> ~ tidy s.
Proof.
  intros Hh Hb HT. apply andb_true_iff in Hb as [H1 H2]. apply bool_decide_eq_true in H1. apply Z.eqb_eq in H2. apply (hist_tidy _ _ _ _ Hh) in HT. specialize (HT x H1). lia.
Qed.
Lemma tidyb_ok W s k h : hist W s k h -> forallb (fun x => 0 <? refcount (s_refs s) x) (elements (d_orphans (s_db s))) = true -> tidy s.
Proof.
  intros Hh Hb. apply (hist_tidy _ _ _ _ Hh). intros x Hx. rewrite forallb_forall in Hb. apply Z.ltb_lt, Hb. apply elem_of_list_In, elem_of_elements. exact Hx.
Qed.
#[local] Instance reply_dec : EqDecision reply.
Proof. solve_decision. Defined.
Lemma sent_ok s q l : bool_decide (out s q = Some (l, false)) = true -> handles s q l (next s q).
Proof. intros H. apply bool_decide_eq_true in H. destruct (out_ok _ _ _ H) as (o & E & Eo). exists o. auto. Qed.
(** /f is found and given back; the listing of / does not have it any more *)
Definition q83o : list request := [QLookup online 1 nF; QForget 2 1; QOpendir changed 1].
(** /f is found, then it is gone, then it is given back *)
Definition q83f : list request := [QLookup online 1 nF; QLookup changed 1 nF; QForget 2 1].
(** So the cache is not always tidy. *)
Theorem C83_left : (exists W s k h b x, hist W s k h /\ klegal k s (QOpendir b x) /\ enough W s (QOpendir b x) /\ tidy s /\ exists s1, handles s (QOpendir b x) [ROpen] s1 /\ ~ tidy s1) /\
  (exists W s k h x, hist W s k h /\ klegal k s (QForget x 1) /\ enough W s (QForget x 1) /\ tidy s /\ exists s1, handles s (QForget x 1) [RNone] s1 /\ ~ tidy s1).
Proof.
  split.
  - set (q0 := [QLookup online 1 nF; QForget 2 1]). exists (sW q0), (sS q0), (sK q0), (sH q0), changed, 1. assert (Hh : hist (sW q0) (sS q0) (sK q0) (sH q0)) by (apply sess_hist; qs_ok).
    split; [exact Hh|]. split; [apply klegalb_ok; [exact changed_ok|vm_compute; reflexivity]|]. split; [apply Z.ltb_lt; vm_compute; reflexivity|]. split; [eapply tidyb_ok; [exact Hh|vm_compute; reflexivity]|].
    exists (next (sS q0) (QOpendir changed 1)). split; [apply sent_ok; vm_compute; reflexivity|]. assert (Hh1 : hist (sW q83o) (sS q83o) (sK q83o) (sH q83o)) by (apply sess_hist; qs_ok).
    assert (Hn : next (sS q0) (QOpendir changed 1) = sS q83o) by (vm_compute; reflexivity). rewrite Hn. eapply (untidy_ok _ _ _ _ 2); [exact Hh1|vm_compute; reflexivity].
  - set (q0 := [QLookup online 1 nF; QLookup changed 1 nF]). exists (sW q0), (sS q0), (sK q0), (sH q0), 2. assert (Hh : hist (sW q0) (sS q0) (sK q0) (sH q0)) by (apply sess_hist; qs_ok).
    split; [exact Hh|]. split; [apply klegalb_ok; [exact I|vm_compute; reflexivity]|]. split; [apply Z.ltb_lt; vm_compute; reflexivity|]. split; [eapply tidyb_ok; [exact Hh|vm_compute; reflexivity]|].
    exists (next (sS q0) (QForget 2 1)). split; [apply sent_ok; vm_compute; reflexivity|]. assert (Hh1 : hist (sW q83f) (sS q83f) (sK q83f) (sH q83f)) by (apply sess_hist; qs_ok).
    assert (Hn : next (sS q0) (QForget 2 1) = sS q83f) by (vm_compute; reflexivity). rewrite Hn. eapply (untidy_ok _ _ _ _ 2); [exact Hh1|vm_compute; reflexivity].
Qed.
Print Assumptions C83_left.
(** The next lookup that finds something new takes it away, and so does the next mount. *)
Example C83_sample : ~ tidy (sS q83o) /\ stored (sS q83o) 2 /\
  (exists s1, handles (sS q83o) (QLookup online 1 nF) [REntry 5 (from_backend_stat (fileA 10))] s1 /\ tidy s1 /\ ~ stored s1 2) /\
  (exists s1, handles (sS q83o) (QRestart rootA) [] s1 /\ (forall x, stored s1 x -> reached s1 1 x) /\ ~ stored s1 2) /\
  (* a removed file that is held does not count *)
  (let q0 := [QLookup online 1 nF; QLookup changed 1 nF] in tidy (sS q0) /\ asked (sS q0) 2 = None /\ stored (sS q0) 2).
Proof.
  assert (Hh1 : hist (sW q83o) (sS q83o) (sK q83o) (sH q83o)) by (apply sess_hist; qs_ok).
  assert (Hst : forall s x, match getattr (s_db s) x with Ok _ => true | Err _ => false end = true -> stored s x) by (intros s x; unfold stored; destruct (getattr (s_db s) x); [eauto|discriminate]).
  assert (Hnst : forall s x, match getattr (s_db s) x with Ok _ => true | Err _ => false end = false -> ~ stored s x) by (intros s x; unfold stored; destruct (getattr (s_db s) x); [discriminate|intros _ [? ?]; discriminate]).
  split; [eapply (untidy_ok _ _ _ _ 2); [exact Hh1|vm_compute; reflexivity]|]. split; [apply Hst; vm_compute; reflexivity|]. split; [|split].
  - assert (H1 : handles (sS q83o) (QLookup online 1 nF) [REntry 5 (from_backend_stat (fileA 10))] (next (sS q83o) (QLookup online 1 nF))) by (apply sent_ok; vm_compute; reflexivity).
    exists (next (sS q83o) (QLookup online 1 nF)). split; [exact H1|]. split; [|apply Hnst; vm_compute; reflexivity].
    apply (C83_cleaned _ _ _ _ (QLookup online 1 nF) [REntry 5 (from_backend_stat (fileA 10))] _ Hh1); [apply klegalb_ok; [exact online_ok|vm_compute; reflexivity]|apply Z.ltb_lt; vm_compute; reflexivity|exact H1|]. left. eexists _, _. split; [reflexivity|]. apply Hnst. vm_compute. reflexivity.
  - assert (H1 : handles (sS q83o) (QRestart rootA) [] (next (sS q83o) (QRestart rootA))) by (apply sent_ok; vm_compute; reflexivity).
    exists (next (sS q83o) (QRestart rootA)). split; [exact H1|]. split; [|apply Hnst; vm_compute; reflexivity]. intros x. exact (C83_opened _ _ _ _ _ _ _ x Hh1 H1).
  - cbn zeta. split; [eapply tidyb_ok; [apply sess_hist; qs_ok|vm_compute; reflexivity]|]. split; [vm_compute; reflexivity|apply Hst; vm_compute; reflexivity].
Qed.
