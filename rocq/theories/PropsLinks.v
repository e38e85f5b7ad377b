(** File system properties C61 (symbolic links) and C62 (attributes): every request, every history. *)
From Verif Require Export FsChange.
From Verif Require Import PropsFs.

(** ** C61: symbolic links *)
(** The backend answers: the answer is passed on (as a C string), and if [x] is known as a
    symbolic link, it is remembered, and its length becomes the size of the link. *)
Theorem C61_online : forall W s k h b x pp l, hist W s k h -> klegal k s (QReadlink b x) -> enough W s (QReadlink b x) ->
  asked s x = Some pp -> b_readlink b (backend_path pp) = Ok l ->
  exists s', handles s (QReadlink b x) [RReadlink (cstr l)] s' /\
    forall a, getattr (s_db s) x = Ok a ->
      if ftype (a_mode a) =? S_IFLNK then readlink (s_db s') x = Ok l /\ getattr (s_db s') x = Ok (set_size (Z.of_nat (length l)) a)
      else s' = s.
Proof.
  intros W s k h b x pp l H Hl Hen Ha Hb. destruct (hist_inv _ _ _ _ H) as (HF & _). pose proof (dr_inv _ _ _ (fi_dr _ _ _ HF)) as Hi.
  destruct (h_readlink_total W s k b x HF) as (s' & r & E & Hc). exists s'.
  destruct Hc as [Hw|comps link r t1 Hw El E1|comps link Hw El Hr|comps e Hw El Hr|comps e r t1 Hw El He E1]; try (rewrite (asked_walk _ _ _ Hi Hw) in Ha; injection Ha as <-); try congruence; [rewrite asked_none in Ha by assumption; discriminate|].
  assert (link = l) by congruence. subst link. split; [apply handles_one; cbn [fstep]; rewrite E; reflexivity|]. intros a Hg. unfold getattr in Hg. destruct (d_inodes (s_db s) !! x) as [i|] eqn:Ei; [|discriminate]. injection Hg as <-.
  unfold writelink in E1. change (t_db (begun s)) with (s_db s) in E1. rewrite Ei in E1. destruct (_ =? S_IFLNK); cbn [negb] in E1; injection E1 as _ <-.
  - cbn [s_db after set_dbr t_db with_db]. unfold readlink, getattr. cbn [d_links d_inodes set_links set_inodes]. rewrite !lookup_insert. auto.
  - unfold after. cbn [begun begin_tx t_db t_refs]. apply set_dbr_id.
Qed.
Print Assumptions C61_online.
(** Offline nothing changes, and the reply is given by the history: the last target that a
    backend told for this link; an error if there was none. *)
Theorem C61_offline : forall W s k h b x pp, hist W s k h -> klegal k s (QReadlink b x) -> enough W s (QReadlink b x) ->
  asked s x = Some pp -> b_readlink b (backend_path pp) = Err ENOTCONN ->
  handles s (QReadlink b x) [match told_link h x with Some l => RReadlink (cstr l) | None => RErr EINVAL end] s.
Proof.
  intros W s k h b x pp H Hl Hen Ha Hb. destruct (hist_inv _ _ _ _ H) as (HF & _). pose proof (dr_inv _ _ _ (fi_dr _ _ _ HF)) as Hi.
  pose proof (asked_has _ _ _ Hi Ha) as Hx. rewrite <- (li_link _ _ (hist_links _ _ _ _ H) x Hx). apply has_inode_iff in Hx as [i Hix].
  destruct (h_readlink_total W s k b x HF) as (s' & r & E & Hc).
  destruct Hc as [Hw|comps link r t1 Hw El E1|comps link Hw El Hr|comps e Hw El Hr|comps e r t1 Hw El He E1]; try (rewrite (asked_walk _ _ _ Hi Hw) in Ha; injection Ha as <-); try congruence; [rewrite asked_none in Ha by assumption; discriminate|..]; unfold readlink in Hr.
  - destruct (d_links (s_db s) !! x) as [l|]; [|rewrite Hix in Hr; discriminate]. injection Hr as ->. apply handles_one. cbn [fstep]. rewrite E. reflexivity.
  - destruct (d_links (s_db s) !! x) as [l|]; [discriminate|]. rewrite Hix in Hr. injection Hr as <-. apply handles_one. cbn [fstep]. rewrite E. reflexivity.
Qed.
Print Assumptions C61_offline.
(** It never invents a target: an offline reply goes back to a request in which a backend told it
    for this link. *)
Theorem C61_no_invention : forall W s k h b x pp t s', hist W s k h -> klegal k s (QReadlink b x) -> enough W s (QReadlink b x) ->
  asked s x = Some pp -> b_readlink b (backend_path pp) = Err ENOTCONN -> handles s (QReadlink b x) [RReadlink t] s' ->
  exists h1 e h2 l, h = h1 ++ [e] ++ h2 /\ tells e x = Some l /\ t = cstr l /\ Forall (fun e => tells e x = None) h2.
Proof.
  intros W s k h b x pp t s' H Hl Hen Ha Hb Hh. destruct (handles_fun _ _ _ _ _ _ Hh (C61_offline W s k h b x pp H Hl Hen Ha Hb)) as [E _].
  destruct (told_link h x) as [l|] eqn:Et; [|discriminate]. injection E as ->. clear - Et.
  assert (Hind : forall h, told_link h x = Some l -> exists h1 e h2, h = h1 ++ [e] ++ h2 /\ tells e x = Some l /\ Forall (fun e => tells e x = None) h2).
  { clear. intros h. induction h as [|e h IH] using rev_ind; [discriminate|]. rewrite told_link_snoc. destruct (tells e x) as [l'|] eqn:Et.
    - intros E. injection E as ->. exists h, e, []. auto.
    - intros E. destruct (IH E) as (h1 & e' & h2 & -> & H1 & H2). exists h1, e', (h2 ++ [e]). split; [rewrite <- !app_assoc; reflexivity|]. split; [exact H1|]. apply Forall_app. split; [exact H2|]. constructor; [exact Et|constructor]. }
  destruct (Hind _ Et) as (h1 & e & h2 & -> & H1 & H2). exists h1, e, h2, l. auto.
Qed.
Print Assumptions C61_no_invention.
(** Any other error is passed on, and the entry is dropped. *)
Theorem C61_error : forall W s k h b x pp e, hist W s k h -> klegal k s (QReadlink b x) -> enough W s (QReadlink b x) ->
  asked s x = Some pp -> b_readlink b (backend_path pp) = Err e -> e <> ENOTCONN ->
  exists s', handles s (QReadlink b x) [RErr e] s' /\ (x = ROOT_INO -> s' = s) /\ (x <> ROOT_INO -> asked s' x = None /\ forall p n, u64 p -> lookup (s_db s') p n <> Ok x).
Proof.
  intros W s k h b x pp e H Hl Hen Ha Hb Hne. destruct (hist_inv _ _ _ _ H) as (HF & _). pose proof (fi_dr _ _ _ HF) as Hdr. pose proof (dr_inv _ _ _ Hdr) as Hi.
  assert (HT : TInv (begun s)) by (eapply way_tinv; apply way_begin; exact Hdr).
  destruct (h_readlink_total W s k b x HF) as (s' & r & E & Hc). exists s'.
  destruct Hc as [Hw|comps link r t1 Hw El E1|comps link Hw El Hr|comps e' Hw El Hr|comps e' r t1 Hw El He E1]; try (rewrite (asked_walk _ _ _ Hi Hw) in Ha; injection Ha as <-); try congruence; [rewrite asked_none in Ha by assumption; discriminate|].
  assert (e' = e) by congruence. subst e'. split; [apply handles_one; cbn [fstep]; rewrite E; reflexivity|]. split.
  - intros ->. destruct (unlink_ino_spec (begun s) 1 HT) as [(_ & E')|[(Hno & _)|(d1 & Hd1 & _)]].
    + unfold ROOT_INO in E1. rewrite E' in E1. injection E1 as _ <-. unfold after. cbn [begun begin_tx t_db t_refs]. apply set_dbr_id.
    + destruct (inv_root _ Hi) as (i & Hr & _). cbn in Hno. congruence.
    + exfalso. cbn [begun begin_tx t_db] in Hd1. destruct Hd1 as [[Ho _]|(p & e1 & i & He1 & _)]; [exact (inv_root_orph _ Hi Ho)|]. destruct (inv_treei _ Hi _ _ _ He1). lia.
  - intros Hx. assert (Hno : forall p n a, ~ kn (t_db t1) p n x a) by (intros p n a Hk; destruct (proj2 (unlink_ino_kn _ _ _ _ _ _ _ _ HT E1) Hk) as [_ ?]; contradiction).
    assert (Hi1 : Inv (t_db t1)). { assert (Es : exists r, step (begun s) (OUnlinkIno x) = Done (r, t1)) by (cbn [step]; rewrite E1; eexists; reflexivity). destruct Es as [r' Es]. destruct (step_fr (begun s) (OUnlinkIno x) _ _ HT I Es) as [HT1 _]. exact (tinv_db _ HT1). }
    assert (Hlk : forall p n, u64 p -> lookup (t_db t1) p n <> Ok x).
    { intros p n Hp Hlk. apply lookup_Ok in Hlk as (_ & e1 & He1 & Ec); [|assumption..]. destruct (treen_child _ _ _ _ Hi1 He1) as (_ & _ & i & Hie & _). apply (Hno p n (i_attr i)). exists e1, i. rewrite <- Ec. auto. }
    cbn [s_db after set_dbr]. split; [|exact Hlk]. apply asked_none; [exact Hi1|]. intros c Hw1. cbn [s_db after set_dbr] in Hw1. apply walk_last in Hw1 as [[? _]|(c' & n & p & e1 & _ & _ & He1 & Hn)]; [contradiction| |exact Hi1].
    apply (Hlk p n); [apply (treei_u64 _ _ _ Hi1 He1)|]. apply lookup_treei; [exact Hi1|apply (treei_u64 _ _ _ Hi1 He1)|]. eauto.
Qed.
Print Assumptions C61_error.
(** A link that was removed while the kernel holds it cannot be read any more. *)
Theorem C61_removed : forall W s k h b x, hist W s k h -> klegal k s (QReadlink b x) -> enough W s (QReadlink b x) ->
  asked s x = None -> handles s (QReadlink b x) [RErr ENOENT] s.
Proof.
  intros W s k h b x H Hl Hen Ha. destruct (hist_inv _ _ _ _ H) as (HF & _). pose proof (dr_inv _ _ _ (fi_dr _ _ _ HF)) as Hi.
  destruct (h_readlink_total W s k b x HF) as (s' & r & E & Hc).
  destruct Hc as [Hw|comps link r t1 Hw El E1|comps link Hw El Hr|comps e' Hw El Hr|comps e' r t1 Hw El He E1]; try (rewrite (asked_walk _ _ _ Hi Hw) in Ha; discriminate).
  apply handles_one. cbn [fstep]. rewrite E. reflexivity.
Qed.
(** A target with a zero byte is cut off there: the reply is a C string. *)
Theorem C61_nul_refuted : exists b, backend_ok b /\ let qs := [QLookup b 1 nL] in hist (sW qs) (sS qs) (sK qs) (sH qs) /\
  b_readlink b pL = Ok [1; 0; 2] /\ asked (sS qs) 2 = Some pL /\ exists s', handles (sS qs) (QReadlink b 2) [RReadlink [1]] s'.
Proof.
  set (b := finite [(pL, linkA)] [(pL, [1; 0; 2])] []). exists b. assert (Hb : backend_ok b) by finite_oks. split; [exact Hb|]. cbv zeta.
  split; [apply sess_hist; repeat (apply Forall_cons; split; [exact Hb|]); apply Forall_nil; exact I|]. split; [reflexivity|]. split; [vm_compute; reflexivity|].
  exists (next (sS [QLookup b 1 nL]) (QReadlink b 2)). destruct (out_ok (sS [QLookup b 1 nL]) (QReadlink b 2) ([RReadlink [1]], false)) as (o & E & Es); [vm_compute; reflexivity|]. exists o. auto.
Qed.
(** Sample: the link /l is read while connected; later it is known as before, and /f is no link. *)
Definition qs_link : list request := [QLookup online 1 nL; QLookup online 1 nF; QReadlink online 2; QRestart rootA; QLookup offline 1 nL; QLookup offline 1 nF].
Example C61_sample : hist (sW qs_link) (sS qs_link) (sK qs_link) (sH qs_link) /\ klegal (sK qs_link) (sS qs_link) (QReadlink offline 2) /\
  asked (sS qs_link) 2 = Some pL /\ told_link (sH qs_link) 2 = Some pF /\ cstr pF = pF /\ told_link (sH qs_link) 3 = None /\
  getattr (s_db (sS qs_link)) 2 = Ok (set_size 2 linkA) /\ b_readlink changed pL = Err ENOENT.
Proof.
  split; [apply sess_hist; qs_ok|]. split; [exact offline_ok|]. 
  split; [vm_compute; reflexivity|]. split; [vm_compute; reflexivity|]. split; [vm_compute; reflexivity|]. split; [vm_compute; reflexivity|]. split; vm_compute; reflexivity.
Qed.

(** ** C62: attributes *)
(** getattr does not ask the backend and changes nothing; it replies the attributes in the cache. *)
Theorem C62_reply : forall s x, handles s (QGetattr x) [match getattr (s_db s) x with Ok a => RAttr x a | Err e => RErr e end] s.
Proof. intros s x. apply handles_one. cbn [fstep h_getattr]. unfold h_getattr. destruct (getattr (s_db s) x); reflexivity. Qed.
(** For an entry of a directory that has a path, these are the attributes of the last news about
    the name, the ones that an offline lookup would reply. *)
Theorem C62_last_known : forall W s k h p n c, hist W s k h -> asked s p <> None -> good_name n -> lookup (s_db s) p n = Ok c ->
  exists a, belief h p n = Some a /\ handles s (QGetattr c) [RAttr c a] s.
Proof.
  intros W s k h p n c H Ha Hv Hl. apply good_name_iff in Hv. destruct (hist_inv _ _ _ _ H) as (HF & _). pose proof (dr_inv _ _ _ (fi_dr _ _ _ HF)) as Hi.
  destruct (asked s p) as [pp|] eqn:Ea; [|contradiction]. pose proof (asked_has _ _ _ Hi Ea) as Hp. apply has_inode_iff in Hp as [ip Hp]. assert (Hu : u64 p) by apply (inode_range _ _ _ Hi Hp).
  destruct (belief_kn _ _ _ _ p n H Hv Hu) as [Hlost|Hbel]; [destruct (asked_not_lost _ _ _ Hi Ea Hlost)|].
  pose proof Hl as Hl'. apply lookup_Ok in Hl' as (_ & e & He & Ec); [|assumption..]. destruct (treen_child _ _ _ _ Hi He) as (_ & _ & i & Hie & _). rewrite Ec in Hie.
  exists (i_attr i). split; [apply Hbel; exists c, e, i; auto|]. pose proof (C62_reply s c) as Hr. unfold getattr in Hr. rewrite Hie in Hr. exact Hr.
Qed.
Print Assumptions C62_last_known.
(** A request that does not concern an inode ([concerns], FsChange.v) leaves its attributes alone. *)
Theorem C62_frame : forall W s k h q s' sent x a, hist W s k h -> klegal k s q -> enough W s q -> handles s q sent s' ->
  getattr (s_db s) x = Ok a -> ~ concerns s x q -> getattr (s_db s') x = Ok a \/ getattr (s_db s') x = Err ENOENT.
Proof.
  intros W s k h q s' sent x a H Hl Hen (o & E & Es) Hg Hn. destruct (hist_inv _ _ _ _ H) as (HF & HA & _).
  destruct (ak_fstep W s k q s' o HF HA Hl Hen E) as (_ & _ & G). unfold getattr in *. destruct (d_inodes (s_db s) !! x) as [i|] eqn:Ei; [|discriminate]. injection Hg as <-.
  destruct (d_inodes (s_db s') !! x) as [i'|] eqn:Ei'; [left; f_equal; eapply G; eassumption|right; reflexivity].
Qed.
Print Assumptions C62_frame.
(** The root: its attributes are the ones of the first mount for ever, whatever the backends
    say, with no permission bits. *)
Lemma no_concern_root s q : Inv (s_db s) -> ~ concerns s ROOT_INO q.
Proof.
  intros H Hc. assert (Hl : forall p n pp, asked s p = Some pp -> lookup (s_db s) p n <> Ok ROOT_INO).
  { intros p n pp Ha Hlk. pose proof (asked_has _ _ _ H Ha) as Hp. apply has_inode_iff in Hp as [ip Hp]. apply lookup_treei in Hlk as (e & He & _); [|exact H|apply (inode_range _ _ _ H Hp)]. destruct (inv_treei _ H _ _ _ He). unfold ROOT_INO in *. lia. }
  inversion Hc as [b p n pp st Ha _ Hlk E|b p pp l n Ha _ Hlk E|b pp l a _ _ Hg Hty E]; subst.
  - eapply Hl; eassumption.
  - eapply Hl; eassumption.
  - unfold getattr in Hg. destruct (inv_root _ H) as (i & Hr & _ & Hd). unfold ROOT_INO in Hg. rewrite Hr in Hg. injection Hg as <-. rewrite Hd in Hty. discriminate Hty.
Qed.
Theorem C62_root : forall W s k h, hist W s k h -> exists a, a_mode a = S_IFDIR /\ handles s (QGetattr ROOT_INO) [RAttr ROOT_INO a] s /\
  forall e, e ∈ h -> getattr (s_db (ev_s e)) ROOT_INO = Ok a.
Proof.
  intros W s k h H. assert (Hex : exists a, a_mode a = S_IFDIR /\ getattr (s_db s) ROOT_INO = Ok a /\ forall e, e ∈ h -> getattr (s_db (ev_s e)) ROOT_INO = Ok a).
  { induction H as [root d r Hok E|W s k h q s' o sent Hh IH Hl HW E Es].
    - exists (set_mode S_IFDIR root). split; [reflexivity|]. split; [|intros e He; inversion He]. destruct (open_cache_spec root db_empty) as (R & HR & E' & Hd & _); [apply init_db_inv|]. rewrite E' in E. injection E as <- _. cbn [s_db].
      rewrite cleaned_getattr. destruct (decide (ROOT_INO ∈ R)) as [Hin|Hin]; [|reflexivity]. exfalso. destruct (inv_root _ Hd) as (i & Hr & _). apply cleaned_inodes in Hr as [Hno _]. contradiction.
    - destruct IH as (a & Hm & Hg & Hall). exists a. split; [exact Hm|]. destruct (hist_inv _ _ _ _ Hh) as (HF & HA & _). pose proof (dr_inv _ _ _ (fi_dr _ _ _ HF)) as Hi.
      assert (Hi' : Inv (s_db s')) by (destruct (hist_inv _ _ _ _ (hist_step _ _ _ _ _ _ _ _ Hh Hl HW E Es)) as (HF' & _); exact (dr_inv _ _ _ (fi_dr _ _ _ HF'))).
      destruct (C62_frame W s k h q s' sent ROOT_INO a Hh Hl HW (ex_intro _ o (conj E Es)) Hg (no_concern_root s q Hi)) as [Hg'|Hg'].
      + split; [exact Hg'|]. intros e He. apply elem_of_app in He as [He|He]; [auto|]. apply elem_of_list_singleton in He as ->. exact Hg.
      + destruct (inv_root _ Hi') as (i & Hr & _). unfold getattr, ROOT_INO in Hg'. rewrite Hr in Hg'. discriminate. }
  destruct Hex as (a & Hm & Hg & Hall). exists a. split; [exact Hm|]. split; [|exact Hall]. pose proof (C62_reply s ROOT_INO) as Hr. rewrite Hg in Hr. exact Hr.
Qed.
Print Assumptions C62_root.
(** The claim that the root shows the backend's attributes is false: the root of this backend
    is writable by everybody, and it was looked at by opendir. *)
Theorem C62_root_refuted : exists b W s k h a, backend_ok b /\ hist W s k h /\ (exists e l, e ∈ h /\ ev_q e = QOpendir b ROOT_INO /\ ev_sent e = [ROpen] /\ b_opendir b [47] = Ok l) /\
  (forall i st, b_lstat b i [47] = Ok st -> a_mode st = S_IFDIR + 511) /\ (exists st, b_lstat b 0 [47] = Ok st) /\ handles s (QGetattr ROOT_INO) [RAttr ROOT_INO a] s /\ a_mode a = S_IFDIR.
Proof.
  set (b := finite [([47], set_mode (S_IFDIR + 511) dirA)] [] [([47], ([], 0))]). assert (Hb : backend_ok b).
  { apply finite_ok; cbn; [|apply Forall_nil; exact I]. apply Forall_cons. split; [|apply Forall_nil; exact I]. repeat split; try (vm_compute; reflexivity); vm_compute; discriminate. }
  set (qs := [QOpendir b 1]). assert (H : hist (sW qs) (sS qs) (sK qs) (sH qs)) by (apply sess_hist; repeat (apply Forall_cons; split; [exact Hb|]); apply Forall_nil; exact I).
  destruct (C62_root _ _ _ _ H) as (a & Hm & Hh & _). exists b, (sW qs), (sS qs), (sK qs), (sH qs), a. split; [exact Hb|]. split; [exact H|]. split.
  - exists (Ev s_start (QOpendir b 1) [ROpen]), ([], 0). split; [|auto]. assert (E : sH qs = [Ev s_start (QOpendir b 1) [ROpen]]) by (vm_compute; reflexivity). rewrite E. left.
  - split; [intros i st Es; cbn in Es; injection Es as <-; reflexivity|]. split; [eexists; reflexivity|]. auto.
Qed.
(** Once an inode has no path any more, it never gets one again, and its attributes stay as they
    are as long as it exists. *)
Theorem C62_frozen : forall W s k h hs W2 s2 k2 x a, hist W s k h -> goes W s k hs W2 s2 k2 -> asked s x = None -> getattr (s_db s) x = Ok a ->
  asked s2 x = None /\ (getattr (s_db s2) x = Ok a \/ getattr (s_db s2) x = Err ENOENT).
Proof.
  intros W s k h hs W2 s2 k2 x a H Hg Ha Hx. assert (Hb : FsClean.below (s_db s) x).
  { destruct (hist_inv _ _ _ _ H) as (HF & _). unfold getattr in Hx. destruct (d_inodes (s_db s) !! x) as [i|] eqn:Ei; [|discriminate]. eapply has_below; [exact (dr_inv _ _ _ (fi_dr _ _ _ HF))|exact Ei]. }
  assert (Hx2 : getattr (s_db s) x = Ok a \/ getattr (s_db s) x = Err ENOENT) by auto. clear Hx. revert h H Ha Hb Hx2.
  induction Hg as [W s k|W s k q s' o sent es W2 s2 k2 Hl HW E Es Hg IH]; intros h H Ha Hb Hx; [auto|].
  pose proof (hist_step _ _ _ _ _ _ _ _ H Hl HW E Es) as H'. destruct (hist_inv _ _ _ _ H) as (HF & HA & _). pose proof (dr_inv _ _ _ (fi_dr _ _ _ HF)) as Hi. destruct (hist_inv _ _ _ _ H') as (HF' & _). pose proof (dr_inv _ _ _ (fi_dr _ _ _ HF')) as Hi'.
  destruct (step_pathkeeps W s k h q s' o H Hl HW E Hi') as [Hn Hp].
  apply (IH _ H').
  - destruct (asked s' x) as [pp|] eqn:Ea; [|reflexivity]. apply asked_some in Ea as (comps & Hw & _); [|exact Hi']. apply Hp in Hw; [|exact Hb]. rewrite (asked_walk _ _ _ Hi Hw) in Ha. discriminate.
  - eapply below_le; eassumption.
  - destruct Hx as [Hx|Hx].
    + eapply C62_frame; [exact H|exact Hl|exact HW|exists o; split; [exact E|exact Es]|exact Hx|]. intros Hc.
      assert (Hlk : forall p n pp, asked s p = Some pp -> lookup (s_db s) p n = Ok x -> False).
      { intros p n pp Hap Hlk. apply asked_some in Hap as (comps & Hw & _); [|exact Hi]. assert (Hw2 : walk (s_db s) 1 (comps ++ [n]) x) by (apply walk_app; exists p; split; [exact Hw|]; exists x; split; [exact Hlk|reflexivity]).
        rewrite (asked_walk _ _ _ Hi Hw2) in Ha. discriminate. }
      inversion Hc as [b p n pp st Hap _ Hlx E0|b p pp l n Hap _ Hlx E0|b pp l a0 Hap _ _ _ E0]; subst; [eapply Hlk; eassumption..|congruence].
    + right. unfold getattr in *. destruct (d_inodes (s_db s) !! x) as [i|] eqn:Ei; [discriminate|]. destruct (d_inodes (s_db s') !! x) as [i'|] eqn:Ei'; [|reflexivity]. exfalso.
      destruct (ak_fstep W s k q s' o HF HA Hl HW E) as (_ & F & _). destruct (F _ _ Ei' Ei) as (k0 & Hk0 & Hle). destruct Hb as (k1 & Hk1 & Hlt). assert (k0 = k1) by congruence. lia.
Qed.
Print Assumptions C62_frozen.
(** Samples: /f, the removed directory /d that the kernel holds, and requests that do not concern /f. *)
Example C62_sample : hist W1 s1 k1 h1 /\ asked s1 2 <> None /\ good_name nF /\ lookup (s_db s1) 2 nF = Ok 5 /\ belief h1 2 nF = Some (fileA 20) /\
  ~ concerns s1 5 (QLookup online 1 nF) /\ concerns s1 5 (QLookup online 2 nF) /\
  asked (sS qs_removed) 2 = None /\ getattr (s_db (sS qs_removed)) 2 = Ok dirA.
Proof.
  split; [exact sess1_hist|]. split; [assert (E : asked s1 2 = Some pD) by (vm_compute; reflexivity); rewrite E; discriminate|]. split; [repeat split; [vm_compute; discriminate|set_solver|set_solver]|].
  split; [vm_compute; reflexivity|]. split; [vm_compute; reflexivity|]. split.
  { intros Hc. assert (Hlk : lookup (s_db s1) 1 nF = Ok 5) by (inversion Hc; assumption). assert (E : lookup (s_db s1) 1 nF = Err ENOENT) by (vm_compute; reflexivity). rewrite E in Hlk. discriminate Hlk. }
  split; [apply (co_lookup s1 5 online 2 nF pD (fileA 20)); vm_compute; reflexivity|]. split; vm_compute; reflexivity.
Qed.
