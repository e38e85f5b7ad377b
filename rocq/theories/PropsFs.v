(** File system properties C33-C38 and C41: every request, every history.
    [hist W s k h]: [s] is the state and [k] what the kernel holds after the requests and
    replies [h] since the first mount, with arbitrary backends that may answer differently in
    every request. *)
From Verif Require Export FsPlay.

(** the request [q] made in [s] sends [sent] and leaves [s'] *)
Definition handles (s : fstate) (q : request) (sent : list reply) (s' : fstate) : Prop :=
  exists o, fstep s q = Done (s', o) /\ sent_of o = (sent, false).
Lemma handles_fun s q r1 s1 r2 s2 : handles s q r1 s1 -> handles s q r2 s2 -> r1 = r2 /\ s1 = s2.
Proof. intros (o1 & E1 & F1) (o2 & E2 & F2). rewrite E1 in E2. injection E2 as <- <-. rewrite F1 in F2. injection F2 as <-. auto. Qed.
Lemma handles_one s q s' r : fstep s q = Done (s', Some [r]) -> handles s q [r] s'.
Proof. intros E. eexists. split; [exact E|]. apply answer_one. Qed.
(** ** sample sessions *)
Definition qs1 : list request :=
  [QLookup online 1 nD; QLookup online 1 nL; QLookup online 1 nF; QOpendir online 2; QReadlink online 3; QForget 4 1; QLookup changed 1 nF].
Definition W1 : Z := sW qs1.
Definition s1 : fstate := sS qs1.
Definition k1 : kst := sK qs1.
Definition h1 : list event := sH qs1.
Lemma sess1_hist : hist W1 s1 k1 h1.
Proof. apply sess_hist. qs_ok. Qed.
Definition silentb (p : Z) (n : bytes) (e : event) : bool := match news (ev_s e) (ev_q e) p n with Silent => true | _ => false end.
Lemma silentb_ok p n h : forallb (silentb p n) h = true -> Forall (fun e => news (ev_s e) (ev_q e) p n = Silent) h.
Proof. intros H. rewrite Forall_forall. intros e He. apply elem_of_list_In in He. rewrite forallb_forall in H. specialize (H e He). unfold silentb in H. destruct (news _ _ _ _); [reflexivity|discriminate..]. Qed.

(** ** C33: every request gets exactly one reply *)
(** Every legal request is handled to its end.  Exactly one reply function gets through to the
    kernel, and it is the one without an answer exactly for forget, forget_multi and releasedir.
    The first half of readdirplus owes its reply to the second half; a restart is no request. *)
Definition unacknowledged (q : request) : Prop :=
  match q with QForget _ _ | QForgetMulti _ | QReleasedir _ => True | _ => False end.
Theorem C33_one_reply_partial : forall W s k h q, hist W s k h -> klegal k s q -> enough W s q ->
  exists s' o, fstep s q = Done (s', o) /\
    match q with
    | QPlusBegin _ _ | QRestart _ => o = None
    | _ => exists r, (sent_of o).1 = [r] /\ (r = RNone <-> unacknowledged q)
    end /\
    ((sent_of o).2 = true -> s' = s /\ exists x size off, q = QReaddir x size off /\ (~ has_inode (s_db s) x \/ is_orphan (s_db s) x)).
Proof.
  intros W s k h q H Hl Hen. destruct (hist_inv _ _ _ _ H) as (HF & HA & HW). destruct (fstep_spec W s k q HF HA Hl Hen) as (s' & o & E & Hok). exists s', o. split; [exact E|].
  split; [|exact (so_thrown _ _ _ _ _ _ Hok)]. pose proof (so_none _ _ _ _ _ _ Hok) as Hn. unfold enough in Hen. assert (H63 : 2 ^ 63 < 2 ^ 64) by lia.
  assert (HW0 : 0 <= weight s q). { destruct q; cbn [weight]; try lia. destruct (path _ _) as [[?|?]| | |]; try lia. destruct (b_opendir _ _) as [[? ?]|]; lia. }
  pose proof (dr_inv _ _ _ (fi_dr _ _ _ HF)) as Hi.
  destruct q as [b p n|x m|fs|x|b x|b x|x size off|x|id x|id size off|tag|root]; cbn [fstep klegal unacknowledged unanswered] in *; try (apply Hn; exact I).
  - destruct Hl as [Hk Hb]. cbn [weight] in Hen. destruct (h_lookup_total W s k b p n HF Hk ltac:(lia)) as (s2 & l & E2 & Hc). rewrite E2 in E. injection E as <- <-.
    destruct Hc; cbn [sent_of]; rewrite answer_one; cbn [fst]; eexists; (split; [reflexivity|split; [discriminate|tauto]]).
  - destruct (h_forget_spec W s k x m HF ltac:(lia) Hl) as (t & E2 & _). rewrite E2 in E. injection E as <- <-. cbn [sent_of]. rewrite answer_one. eexists. split; [reflexivity|tauto].
  - destruct Hl as [Hl1 Hl2]. destruct (h_forget_multi_spec W s k fs HF ltac:(lia) Hl1 Hl2) as (t & E2 & _). rewrite E2 in E. injection E as <- <-. cbn [sent_of]. rewrite answer_one. eexists. split; [reflexivity|tauto].
  - unfold h_getattr in E. destruct (getattr (s_db s) x); injection E as <- <-; cbn [sent_of]; rewrite answer_one; eexists; (split; [reflexivity|split; [discriminate|tauto]]).
  - destruct (h_readlink_total W s k b x HF) as (s2 & l & E2 & Hc). rewrite E2 in E. injection E as <- <-. destruct Hc; cbn [sent_of]; rewrite answer_one; eexists; (split; [reflexivity|split; [discriminate|tauto]]).
  - destruct Hl as [Hk Hb]. destruct (h_opendir_total W s k b x HF Hk ltac:(lia)) as (s2 & l & E2 & Hc & _). rewrite E2 in E. injection E as <- <-. destruct Hc; cbn [sent_of]; rewrite answer_one; eexists; (split; [reflexivity|split; [discriminate|tauto]]).
  - destruct (h_readdir_total s x size off Hi) as (l & E2 & Hc). rewrite E2 in E. injection E as <- <-. destruct Hc; cbn [sent_of]; rewrite ?answer_one, ?answer_two; eexists; (split; [reflexivity|split; [discriminate|tauto]]).
  - injection E as <- <-. cbn [sent_of]. rewrite answer_one. eexists. split; [reflexivity|tauto].
  - destruct (s_plus s !! id) as [[snap dir]|] eqn:Hid; [|contradiction]. destruct (h_plus_total W s k id size off snap dir HF Hid ltac:(lia)) as (l & e & pre & post & rep & _ & _ & E2 & _ & _ & Hrep). rewrite E2 in E. injection E as <- <-.
    cbn [sent_of]. rewrite answer_one. exists rep. split; [reflexivity|]. split; [|tauto]. intros ->. destruct Hrep as [[? _]|[? _]]; discriminate.
  - injection E as <- <-. cbn [sent_of]. rewrite answer_one. eexists. split; [reflexivity|]. split; [discriminate|tauto].
Qed.
Print Assumptions C33_one_reply_partial.
(** What is missing, 1: listing a directory that was removed while it was open calls a reply
    function twice; the second call throws and ends the process. *)
Definition qs_removed : list request := [QLookup online 1 nD; QLookup (finite [] [] []) 1 nD].
Lemma empty_ok : backend_ok (finite [] [] []).
Proof. split; cbn; discriminate. Qed.
Theorem C33_second_reply_refuted : exists W s k h q s' o, hist W s k h /\ klegal k s q /\ enough W s q /\ fstep s q = Done (s', o) /\ (sent_of o).2 = true.
Proof.
  destruct (out_ok (sS qs_removed) (QReaddir 2 4096 0) ([RErr ENOENT], true)) as (o & E & Eo); [vm_compute; reflexivity|].
  exists (sW qs_removed), (sS qs_removed), (sK qs_removed), (sH qs_removed), (QReaddir 2 4096 0), (next (sS qs_removed) (QReaddir 2 4096 0)), o.
  split; [apply sess_hist; repeat (apply Forall_cons; split; [first [exact online_ok|exact empty_ok]|]); apply Forall_nil; exact I|].
  split; [exact I|]. split; [vm_compute; reflexivity|]. split; [exact E|]. rewrite Eo. reflexivity.
Qed.
(** 2: releasedir is never answered, as the theorem says. *)
Theorem C33_releasedir_refuted : forall s x, handles s (QReleasedir x) [RNone] s.
Proof. intros s x. apply handles_one. reflexivity. Qed.

(** ** C34: connected lookup *)
(** names the cache accepts: at most 503 bytes, no zero byte, no slash *)
Definition good_name (n : bytes) : Prop := Z.of_nat (length n) <= 503 /\ 0 ∉ n /\ 47 ∉ n.
Lemma good_name_iff n : good_name n <-> valid_name n.
Proof.
  unfold good_name, valid_name, check_name, MAX_NAME. destruct (Z.ltb_spec (511 - 8) (Z.of_nat (length n))); [split; [lia|discriminate]|]. cbn [negb].
  destruct (existsb _ n) eqn:Ex.
  - apply existsb_exists in Ex as (c & Hin & Hc2). apply elem_of_list_In in Hin. split; [|discriminate]. intros (_ & H1 & H2). apply orb_prop in Hc2 as [Hc2|Hc2]; apply Z.eqb_eq in Hc2; subst; contradiction.
  - split; [reflexivity|]. intros _. split; [lia|]. split; intros Hin; apply elem_of_list_In in Hin.
    + assert (existsb (fun c => (c =? 0) || (c =? 47)) n = true) by (apply existsb_exists; exists 0; auto). congruence.
    + assert (existsb (fun c => (c =? 0) || (c =? 47)) n = true) by (apply existsb_exists; exists 47; auto). congruence.
Qed.
(** The reply carries the backend's attributes, and the cache now has them.  The inode number
    stays the one the name had before if the file type is the same; otherwise it is new. *)
Theorem C34_connected : forall W s k h b p n pp st, hist W s k h -> klegal k s (QLookup b p n) -> enough W s (QLookup b p n) ->
  asked s p = Some pp -> b_lstat b 0 (pp ++ [47] ++ n) = Ok st -> good_name n ->
  exists c s', handles s (QLookup b p n) [REntry c (from_backend_stat st)] s' /\
    lookup (s_db s') p n = Ok c /\ getattr (s_db s') c = Ok (from_backend_stat st) /\
    (forall c0 a0, lookup (s_db s) p n = Ok c0 -> getattr (s_db s) c0 = Ok a0 -> ftype (a_mode a0) = ftype (a_mode st) -> c = c0) /\
    ((lookup (s_db s) p n <> Ok c) -> getattr (s_db s) c = Err ENOENT).
Proof.
  intros W s k h b p n pp st H Hl Hen Hask El Hv. apply good_name_iff in Hv. destruct (hist_inv _ _ _ _ H) as (HF & HA & HW). destruct Hl as [Hk Hb]. unfold enough in Hen. cbn [weight] in Hen.
  pose proof (fi_dr _ _ _ HF) as Hdr. pose proof (dr_inv _ _ _ Hdr) as Hi. pose proof (kdir_is_dir _ _ _ _ HF Hk) as Hdir.
  destruct (h_lookup_total W s k b p n HF Hk ltac:(lia)) as (s' & l & E & Hc). pose proof (lookup_way W s k b p n _ _ HF Hk ltac:(lia) Hc) as Hway.
  assert (HT : TInv (begun s)) by (eapply way_tinv; apply way_begin; exact Hdr). assert (Hroom : room (t_db (begun s))) by (eapply way_room; [apply way_begin; exact Hdr|lia]).
  assert (Hup : u64 p) by (destruct Hdir as (i & Hix & _); apply (inode_range _ _ _ Hi Hix)).
  destruct Hc as [Hw|comps st' e Hw El' Hcn|comps st' c t1 t2 Hw El' Ee Elk|comps c a t2 Hw El' Hl Hg Elk|comps Hw El' Hl Hs|comps Hw El' Hl Hs|comps e Hw El' Hl He|comps e x t1 Hw El' He Eu];
    try (rewrite (asked_walk _ _ _ Hi Hw) in Hask; injection Hask as <-); try congruence; try (rewrite asked_none in Hask by assumption; discriminate); try (unfold valid_name in Hv; congruence).
  assert (st' = st) by congruence. subst st'. exists c, (after t2 s). split; [apply handles_one; cbn [fstep]; rewrite E; reflexivity|].
  destruct Hway as [[? [? ?]]|[(t & e & _ & ? & _)|(t & c' & a' & E1 & E2 & _ & Hg & Hlk & _)]]; [discriminate|discriminate|]. injection E2 as <- <-. rewrite E1. cbn [s_db after set_dbr]. split; [exact Hlk|]. split; [exact Hg|].
  destruct (emplace_spec (begun s) p n (from_backend_stat st) HT Hdir Hroom) as [(err & Hcn & E')|[(_ & e' & i' & He' & Hi' & Hty & E' & HT')|(_ & Hty & kk & R & Hkk & Hfresh & Hd1 & HR & E' & HT')]]; rewrite E' in Ee; [discriminate|..].
  - injection Ee as Ee _. change (t_db (begun s)) with (s_db s) in *. assert (Hkn : lookup (s_db s) p n = Ok c). { apply (knows_kn (s_db s) p n c (i_attr i') Hi Hup). exists e', i'. rewrite <- Ee. auto. }
    split; [|intros; contradiction]. intros c0 a0 H0 _ _. congruence.
  - injection Ee as Ee _. subst kk. change (t_db (begun s)) with (s_db s) in *. split.
    + intros c0 a0 H0 H1 H2. exfalso. destruct (proj1 (knows_kn (s_db s) p n c0 a0 Hi Hup) (conj H0 H1)) as (e & i & A1 & A2 & A3 & A4). apply (Hty e i A1); [congruence|]. rewrite A4. cbn [a_mode from_backend_stat]. exact H2.
    + intros _. unfold getattr. rewrite Hfresh. reflexivity.
Qed.
Print Assumptions C34_connected.
(** the backend reports an error: it is passed on and the entry is dropped *)
Theorem C34_connected_error : forall W s k h b p n pp e, hist W s k h -> klegal k s (QLookup b p n) -> enough W s (QLookup b p n) ->
  asked s p = Some pp -> b_lstat b 0 (pp ++ [47] ++ n) = Err e -> e <> ENOTCONN ->
  exists s', handles s (QLookup b p n) [RErr e] s' /\ (forall c, lookup (s_db s') p n <> Ok c).
Proof.
  intros W s k h b p n pp st H Hl Hen Hask El Hne. destruct (hist_inv _ _ _ _ H) as (HF & HA & HW). destruct Hl as [Hk Hb]. unfold enough in Hen. cbn [weight] in Hen.
  pose proof (fi_dr _ _ _ HF) as Hdr. pose proof (dr_inv _ _ _ Hdr) as Hi. pose proof (kdir_is_dir _ _ _ _ HF Hk) as Hdir.
  assert (HT : TInv (begun s)) by (eapply way_tinv; apply way_begin; exact Hdr).
  destruct (h_lookup_total W s k b p n HF Hk ltac:(lia)) as (s' & l & E & Hc).
  destruct Hc as [Hw|comps st' e Hw El' Hcn|comps st' c t1 t2 Hw El' Ee Elk|comps c a t2 Hw El' Hl Hg Elk|comps Hw El' Hl Hs|comps Hw El' Hl Hs|comps e Hw El' Hl He|comps e x t1 Hw El' He Eu];
    try (rewrite (asked_walk _ _ _ Hi Hw) in Hask; injection Hask as <-); try congruence; [rewrite asked_none in Hask by assumption; discriminate|].
  assert (e = st) by congruence. subst st. exists (after t1 s). split; [apply handles_one; cbn [fstep]; rewrite E; reflexivity|]. cbn [s_db after set_dbr]. intros c Hlk.
  assert (Es : exists r, step (begun s) (OUnlinkName p n) = Done (r, t1)) by (cbn [step]; rewrite Eu; eexists; reflexivity). destruct Es as [r Es].
  assert (HT1 : TInv t1). { destruct (step_inv (begun s) (OUnlinkName p n) HT I) as [(r' & t' & E1 & HT')|(_ & y & m & Hx & _)]; [|discriminate]. rewrite Es in E1. injection E1 as _ <-. exact HT'. }
  assert (Hup : u64 p) by (destruct Hdir as (i & Hix & _); apply (inode_range _ _ _ Hi Hix)).
  pose proof (tinv_db _ HT1) as Hi1. apply lookup_treei in Hlk as (en & Hen1 & Hn); [|assumption..]. destruct (treei_facts _ _ _ _ Hi1 Hen1) as (_ & [a Ha] & _). 
  assert (Hk1 : kn (t_db t1) p n c a). { apply knows_kn; [assumption..|]. split; [apply lookup_treei; eauto|assumption]. }
  destruct (proj2 (unlink_name_kn _ _ _ _ _ _ _ _ _ HT Eu) Hk1) as [_ Hx]. congruence.
Qed.
Print Assumptions C34_connected_error.
(** the two remaining cases: a name the cache refuses, and a directory that was removed *)
Theorem C34_other : forall W s k h b p n, hist W s k h -> klegal k s (QLookup b p n) -> enough W s (QLookup b p n) ->
  (asked s p = None -> handles s (QLookup b p n) [RErr ENOENT] s) /\
  (forall pp st, asked s p = Some pp -> b_lstat b 0 (pp ++ [47] ++ n) = Ok st -> ~ good_name n ->
     handles s (QLookup b p n) [RErr (if 503 <? Z.of_nat (length n) then ENAMETOOLONG else EINVAL)] s).
Proof.
  intros W s k h b p n H Hl Hen. destruct (hist_inv _ _ _ _ H) as (HF & HA & HW). destruct Hl as [Hk Hb]. unfold enough in Hen. cbn [weight] in Hen.
  pose proof (fi_dr _ _ _ HF) as Hdr. pose proof (dr_inv _ _ _ Hdr) as Hi. pose proof (kdir_is_dir _ _ _ _ HF Hk) as Hdir.
  destruct (h_lookup_total W s k b p n HF Hk ltac:(lia)) as (s' & l & E & Hc). split.
  - intros Hask. destruct Hc; try (rewrite (asked_walk _ _ _ Hi H0) in Hask; discriminate). apply handles_one. cbn [fstep]. rewrite E. reflexivity.
  - intros pp st Hask El Hng. rewrite good_name_iff in Hng. assert (HT : TInv (begun s)) by (eapply way_tinv; apply way_begin; exact Hdr). assert (Hroom : room (t_db (begun s))) by (eapply way_room; [apply way_begin; exact Hdr|lia]).
    destruct Hc as [Hw|comps st' e Hw El' Hcn|comps st' c t1 t2 Hw El' Ee Elk|comps c a t2 Hw El' Hl Hg Elk|comps Hw El' Hl Hs|comps Hw El' Hl Hs|comps e Hw El' Hl He|comps e x t1 Hw El' He Eu];
      try (rewrite (asked_walk _ _ _ Hi Hw) in Hask; injection Hask as <-); try congruence; [rewrite asked_none in Hask by assumption; discriminate|..].
    + apply handles_one. cbn [fstep]. rewrite E. cbn [obind]. do 4 f_equal. unfold check_name, MAX_NAME in Hcn. change (511 - 8) with 503 in Hcn. destruct (503 <? Z.of_nat (length n)); [congruence|]. cbn [negb] in Hcn. destruct (existsb _ n); congruence.
    + exfalso. destruct (emplace_spec (begun s) p n (from_backend_stat st') HT Hdir Hroom) as [(err & Hcn & E')|[(Hv & _)|(Hv & _)]]; [|contradiction..]. congruence.
Qed.
(** nothing else changes: a request that brings no news about [n] in [p] leaves the entry as it was, as long as [p] is there *)
Theorem C34_frame : forall W s k h q s' sent p n c a, hist W s k h -> klegal k s q -> enough W s q -> handles s q sent s' ->
  good_name n -> news s q p n = Silent -> has_inode (s_db s) p -> has_inode (s_db s') p ->
  (lookup (s_db s) p n = Ok c /\ getattr (s_db s) c = Ok a <-> lookup (s_db s') p n = Ok c /\ getattr (s_db s') c = Ok a).
Proof.
  intros W s k h q s' sent p n c a H Hl Hen (o & E & Es) Hv Hn Hp Hp'. apply good_name_iff in Hv. destruct (hist_inv _ _ _ _ H) as (HF & HA & HW).
  assert (H' : hist (W + weight s q) s' (kstep k q sent) (h ++ [Ev s q sent])) by (econstructor; eassumption). destruct (hist_inv _ _ _ _ H') as (HF' & _).
  pose proof (dr_inv _ _ _ (fi_dr _ _ _ HF)) as Hi. pose proof (dr_inv _ _ _ (fi_dr _ _ _ HF')) as Hi'.
  assert (Hu : u64 p) by (apply has_inode_iff in Hp as [i Hp]; apply (inode_range _ _ _ Hi Hp)).
  change (knows (s_db s) p n c a <-> knows (s_db s') p n c a). rewrite !knows_kn by assumption. destruct (news_step W s k q s' o p n HF HA Hl Hen E Hv Hu) as [_ Hent]. rewrite Hn in Hent. destruct Hent as [F B]. split; [|apply B].
  intros Hkn. destruct (F c a (or_introl Hkn)) as [?|[Hx _]]; [assumption|]. apply has_inode_iff in Hp' as [i Hp']. congruence.
Qed.
Print Assumptions C34_frame.
Example C34_sample :
  klegal k1 s1 (QLookup online 2 nF) /\ enough W1 s1 (QLookup online 2 nF) /\ asked s1 2 = Some pD /\ b_lstat online 0 (pD ++ [47] ++ nF) = Ok (fileA 20) /\ good_name nF /\
  klegal k1 s1 (QLookup changed 1 nF) /\ asked s1 1 = Some [] /\ b_lstat changed 0 ([] ++ [47] ++ nF) = Err ENOENT /\
  news s1 (QLookup online 2 nF) 2 nG = Silent /\ lookup (s_db s1) 2 nG = Ok 6.
Proof.
  split; [apply klegalb_ok; [exact online_ok|vm_compute; reflexivity]|]. split; [vm_compute; reflexivity|]. split; [vm_compute; reflexivity|]. split; [reflexivity|]. split; [split; [cbn; lia|unfold nF; split; set_solver]|].
  split; [apply klegalb_ok; [exact changed_ok|vm_compute; reflexivity]|]. split; [vm_compute; reflexivity|]. split; [reflexivity|]. split; vm_compute; reflexivity.
Qed.

(** ** C35: offline lookup *)
(** Offline, the reply is given by the history alone: the attributes of the last news about
    the name ([belief], FsNews.v), with the inode number it has in the cache, which is not
    changed; with no such news, or if the last news was that it is gone, an error. *)
Theorem C35_offline : forall W s k h b p n pp, hist W s k h -> klegal k s (QLookup b p n) -> enough W s (QLookup b p n) ->
  asked s p = Some pp -> b_lstat b 0 (pp ++ [47] ++ n) = Err ENOTCONN -> good_name n ->
  exists s' r, handles s (QLookup b p n) [r] s' /\ s_db s' = s_db s /\
    match belief h p n with
    | Some a => exists c, r = REntry c a /\ lookup (s_db s) p n = Ok c
    | None => r = RErr (match test_flag (s_db s) p SYNCED with Ok true => ENOENT | _ => EIO end)
    end.
Proof.
  intros W s k h b p n pp H Hl Hen Hask El Hv. apply good_name_iff in Hv. destruct (hist_inv _ _ _ _ H) as (HF & HA & HW). destruct Hl as [Hk Hb]. unfold enough in Hen. cbn [weight] in Hen.
  pose proof (fi_dr _ _ _ HF) as Hdr. pose proof (dr_inv _ _ _ Hdr) as Hi. pose proof (kdir_is_dir _ _ _ _ HF Hk) as Hdir.
  assert (Hup : u64 p) by (destruct Hdir as (i & Hix & _); apply (inode_range _ _ _ Hi Hix)).
  destruct (belief_kn _ _ _ _ p n H Hv Hup) as [Hlost|Hbel]; [destruct (asked_not_lost _ _ _ Hi Hask Hlost)|].
  destruct (h_lookup_total W s k b p n HF Hk ltac:(lia)) as (s' & l & E & Hc). exists s'.
  assert (Hh : forall r, l = [r] -> handles s (QLookup b p n) [r] s') by (intros r ->; apply handles_one; cbn [fstep]; rewrite E; reflexivity).
  assert (Hnone : lookup (s_db s) p n = Err ENOENT -> belief h p n = None).
  { intros Hlk. destruct (belief h p n) as [a|] eqn:Eb; [|reflexivity]. destruct (proj2 (Hbel a) eq_refl) as [c Hkn]. apply knows_kn in Hkn as [Hkn _]; [|assumption..]. congruence. }
  destruct Hc as [Hw|comps st' e Hw El' Hcn|comps st' c t1 t2 Hw El' Ee Elk|comps c a t2 Hw El' Hl Hg Elk|comps Hw El' Hl Hs|comps Hw El' Hl Hs|comps e Hw El' Hl He|comps e x t1 Hw El' He Eu];
    try (rewrite (asked_walk _ _ _ Hi Hw) in Hask; injection Hask as <-); try congruence; [rewrite asked_none in Hask by assumption; discriminate|..].
  - exists (REntry c a). split; [apply Hh; reflexivity|]. split; [cbn [after set_dbr s_db]; apply (lock_refcount (begun s) c t2 W Hdr ltac:(lia) Elk)|].
    assert (Hb' : belief h p n = Some a) by (apply Hbel; exists c; apply knows_kn; [assumption..|split; assumption]). rewrite Hb'. eauto.
  - exists (RErr ENOENT). split; [apply Hh; reflexivity|]. split; [reflexivity|]. rewrite (Hnone Hl), Hs. reflexivity.
  - exists (RErr EIO). split; [apply Hh; reflexivity|]. split; [reflexivity|]. rewrite (Hnone Hl). destruct (test_flag (s_db s) p SYNCED) as [[]|]; congruence.
  - exfalso. apply He. unfold lookup in Hl. assert (Hcf : check_name n false = Ok tt). { unfold valid_name, check_name in *. destruct (MAX_NAME <? _); [discriminate|reflexivity]. } rewrite Hcf in Hl.
    destruct (Z.eqb_spec p INVALID_INO) as [->|]; [destruct Hdir as (i & Hix & _); destruct (inode_range _ _ _ Hi Hix); unfold INVALID_INO in *; lia|].
    clear - Hl. induction (from_key enc_in (d_treen (s_db s)) (le64 p)) as [|[[q m] f] rest IH]; cbn in Hl; [congruence|]. repeat (match type of Hl with context [if ?x then _ else _] => destruct x end); try discriminate; try congruence; auto.
Qed.
Print Assumptions C35_offline.
(** The inode number too: after a lookup that replied [REntry c a], offline lookups give the
    same reply as long as there is no other news about the name. *)
Theorem C35_same_reply : forall W s k h1 b0 p n s1 c a h2 b pp, hist W s k (h1 ++ [Ev s1 (QLookup b0 p n) [REntry c a]] ++ h2) ->
  Forall (fun e => news (ev_s e) (ev_q e) p n = Silent) h2 ->
  klegal k s (QLookup b p n) -> enough W s (QLookup b p n) ->
  asked s p = Some pp -> b_lstat b 0 (pp ++ [47] ++ n) = Err ENOTCONN ->
  exists s', handles s (QLookup b p n) [REntry c a] s'.
Proof.
  intros W s k h1 b0 p n s1 c a h2 b pp H Hsil Hl Hen Hask El. destruct (hist_inv _ _ _ _ H) as (HF & HA & HW). pose proof (fi_dr _ _ _ HF) as Hdr. pose proof (dr_inv _ _ _ Hdr) as Hi.
  rewrite app_assoc in H.
  assert (Hfirst : forall W1 s2 k1, hist W1 s2 k1 (h1 ++ [Ev s1 (QLookup b0 p n) [REntry c a]]) -> kn (s_db s2) p n c a).
  { intros W1 s2 k1 H1. destruct (hist_inv _ _ _ _ H1) as (HF2 & _). apply hist_last in H1 as (W0 & k0' & s' & o & sent & H0 & [Hk Hb] & Hen0 & E & Es & Ee & -> & -> & ->). cbn [ev_s ev_q] in *. injection Ee as <-.
    destruct (hist_inv _ _ _ _ H0) as (HF0 & HA0 & HW0). unfold enough in Hen0. cbn [weight fstep] in *. destruct (h_lookup_total W0 s1 k0' b0 p n HF0 Hk ltac:(lia)) as (s2' & l & E2 & Hc). rewrite E2 in E. injection E as <- <-.
    pose proof (kdir_is_dir _ _ _ _ HF0 Hk) as Hdir. assert (Hup : u64 p) by (destruct Hdir as (i & Hix & _); apply (inode_range _ _ _ (dr_inv _ _ _ (fi_dr _ _ _ HF0)) Hix)).
    destruct (lookup_way W0 s1 k0' b0 p n _ _ HF0 Hk ltac:(lia) Hc) as [[-> [? ->]]|[(t & e & -> & -> & _)|(t & c' & a' & -> & -> & Hw & Hg & Hlk & _)]]; cbn [sent_of] in Es; rewrite answer_one in Es; [discriminate|discriminate|]. injection Es as <- <-.
    cbn [s_db after set_dbr]. apply knows_kn; [exact (tinv_db _ (way_tinv _ _ _ _ Hw))|exact Hup|split; assumption]. }
  assert (Hvu : valid_name n /\ u64 p).
  { assert (Hex : exists W1 s2 k1, hist W1 s2 k1 (h1 ++ [Ev s1 (QLookup b0 p n) [REntry c a]])).
    { clear - H. revert W s k H. induction h2 as [|e h2 IH] using rev_ind; intros W s k H; [rewrite app_nil_r in H; eauto|]. rewrite app_assoc in H. apply hist_last in H as (W0 & k0' & s' & o & sent & H0 & _). eauto. }
    destruct Hex as (W1 & s2 & k1 & H1). destruct (hist_inv _ _ _ _ H1) as (HF1 & _). specialize (Hfirst _ _ _ H1). pose proof (dr_inv _ _ _ (fi_dr _ _ _ HF1)). split; [eapply kn_valid|eapply kn_u64]; eassumption. }
  destruct Hvu as [Hv Hup].
  assert (Hk : kol p n c a (s_db s)).
  { eapply (hist_suffix (fun s => kol p n c a (s_db s)) (fun e => news (ev_s e) (ev_q e) p n = Silent)); [|exact H|exact Hsil|intros W1 s2 k1 H1; left; eauto].
    intros W0 s0 k0' h q s' o sent H0 Hl0 Hen0 E Es Hq Hkol. cbn [ev_s ev_q] in Hq. destruct (hist_inv _ _ _ _ H0) as (HF0 & HA0 & _). destruct (news_step W0 s0 k0' q s' o p n HF0 HA0 Hl0 Hen0 E Hv Hup) as [_ Hent]. rewrite Hq in Hent. apply Hent, Hkol. }
  destruct Hk as [Hk|Hk]; [|destruct (asked_not_lost _ _ _ Hi Hask Hk)]. pose proof Hk as Hk'. apply knows_kn in Hk as [Hk1 Hk2]; [|assumption..].
  rewrite <- app_assoc in H. destruct (C35_offline W s k _ b p n pp H Hl Hen Hask El (proj2 (good_name_iff n) Hv)) as (s' & r & Hh & _ & Hr). exists s'.
  destruct (belief_kn _ _ _ _ p n H Hv Hup) as [Hlost|Hbel]; [destruct (asked_not_lost _ _ _ Hi Hask Hlost)|]. rewrite (proj1 (Hbel a) (ex_intro _ c Hk')) in Hr. destruct Hr as (c' & -> & Hc'). replace c with c' by congruence. exact Hh.
Qed.
Print Assumptions C35_same_reply.
(** It never invents entries: an offline reply with attributes goes back to a request in which
    a connected backend answered with them: an lstat of the name by lookup or opendir, or a
    readlink, which only changes the size. *)
Theorem C35_no_invention : forall W s k h b p n pp c a s', hist W s k h -> klegal k s (QLookup b p n) -> enough W s (QLookup b p n) ->
  asked s p = Some pp -> b_lstat b 0 (pp ++ [47] ++ n) = Err ENOTCONN -> good_name n -> handles s (QLookup b p n) [REntry c a] s' ->
  exists h1 e h2, h = h1 ++ [e] ++ h2 /\ news (ev_s e) (ev_q e) p n = Now a /\ Forall (fun e => news (ev_s e) (ev_q e) p n = Silent) h2.
Proof.
  intros W s k h b p n pp c a s' H Hl Hen Hask El Hv Hh. destruct (C35_offline W s k h b p n pp H Hl Hen Hask El Hv) as (s2 & r & Hh2 & _ & Hr). destruct (handles_fun _ _ _ _ _ _ Hh Hh2) as [E _]. injection E as <-.
  assert (Hb : belief h p n = Some a). { destruct (belief h p n) as [a'|]; [destruct Hr as (c' & E & _); injection E as <- <-; reflexivity|discriminate]. }
  clear - Hb. induction h as [|e h IH] using rev_ind; [discriminate|]. rewrite belief_snoc in Hb. destruct (news (ev_s e) (ev_q e) p n) as [| |a'] eqn:En; cbn [learn] in Hb; [|discriminate|].
  - destruct (IH Hb) as (h1 & e' & h2 & -> & Hn & Hs). exists h1, e', (h2 ++ [e]). rewrite <- !app_assoc. split; [reflexivity|]. split; [exact Hn|]. apply Forall_app. split; [exact Hs|]. constructor; [exact En|constructor].
  - injection Hb as ->. exists h, e, []. rewrite app_nil_r. split; [reflexivity|]. split; [exact En|constructor].
Qed.
Print Assumptions C35_no_invention.
(** in the sample, /d/f is known from the listing of /d, /l by lookup and readlink *)
Example C35_sample :
  klegal k1 s1 (QLookup offline 2 nF) /\ enough W1 s1 (QLookup offline 2 nF) /\ asked s1 2 = Some pD /\ belief h1 2 nF = Some (fileA 20) /\
  belief h1 1 nL = Some (set_size 2 linkA) /\ belief h1 1 nF = None /\
  h1 = [] ++ [Ev s_start (QLookup online 1 nD) [REntry 2 dirA]] ++ tail h1 /\ Forall (fun e => news (ev_s e) (ev_q e) 1 nD = Silent) (tail h1).
Proof.
  split; [apply klegalb_ok; [exact offline_ok|vm_compute; reflexivity]|]. split; [vm_compute; reflexivity|]. split; [vm_compute; reflexivity|]. split; [vm_compute; reflexivity|]. split; [vm_compute; reflexivity|].
  split; [vm_compute; reflexivity|]. split; [vm_compute; reflexivity|]. apply silentb_ok. vm_compute. reflexivity.
Qed.

(** ** C36: offline ENOENT *)
(** Offline, a lookup replies ENOENT only if a connected backend listed the directory before,
    and then the last news about the name was that it is not there: an lstat or readlink that
    failed, or a listing without a successful lstat of it. *)
Theorem C36_enoent_partial : forall W s k h b p n pp s', hist W s k h -> klegal k s (QLookup b p n) -> enough W s (QLookup b p n) ->
  asked s p = Some pp -> b_lstat b 0 (pp ++ [47] ++ n) = Err ENOTCONN -> good_name n -> handles s (QLookup b p n) [RErr ENOENT] s' ->
  (exists e, e ∈ h /\ lists (ev_s e) (ev_q e) p) /\
  exists h1 e h2, h = h1 ++ [e] ++ h2 /\ news (ev_s e) (ev_q e) p n = Gone /\ Forall (fun e => news (ev_s e) (ev_q e) p n = Silent) h2.
Proof.
  intros W s k h b p n pp s' H Hl Hen Hask El Hv Hh. destruct (C35_offline W s k h b p n pp H Hl Hen Hask El Hv) as (s2 & r & Hh2 & _ & Hr). destruct (handles_fun _ _ _ _ _ _ Hh Hh2) as [E _]. injection E as <-.
  destruct (belief h p n) as [a|] eqn:Hb; [destruct Hr as (? & ? & _); discriminate|]. assert (Hf : test_flag (s_db s) p SYNCED = Ok true) by (destruct (test_flag (s_db s) p SYNCED) as [[]|]; [reflexivity|discriminate..]).
  destruct (synced_listed _ _ _ _ _ H Hf) as (e & He & Hli). split; [eauto|].
  assert (Hns : exists e, e ∈ h /\ news (ev_s e) (ev_q e) p n <> Silent).
  { exists e. split; [exact He|]. destruct Hli as (b' & pp' & [names e0] & Hq & Ha & Ho). rewrite Hq. cbn [news]. rewrite Z.eqb_refl, Ha, Ho. destruct (last_stat _ _ _ _ _ _); discriminate. }
  clear - Hb Hns. induction h as [|e h IH] using rev_ind; [destruct Hns as (e & He & _); inversion He|]. rewrite belief_snoc in Hb. destruct (news (ev_s e) (ev_q e) p n) as [| |a'] eqn:En; cbn [learn] in Hb; [| |discriminate].
  - destruct IH as (h1 & e' & h2 & -> & Hn & Hs); [exact Hb| |].
    + destruct Hns as (e' & He' & Hn'). apply elem_of_app in He' as [He'|He']; [eauto|]. apply elem_of_list_singleton in He' as ->. contradiction.
    + exists h1, e', (h2 ++ [e]). rewrite <- !app_assoc. split; [reflexivity|]. split; [exact Hn|]. apply Forall_app. split; [exact Hs|]. constructor; [exact En|constructor].
  - exists h, e, []. rewrite app_nil_r. split; [reflexivity|]. split; [exact En|constructor].
Qed.
Print Assumptions C36_enoent_partial.
(** If every listing of the directory was complete (it ended without an error and every lstat
    succeeded), ENOENT means that a connected backend said the name is not there: lstat or
    readlink failed, or the listing did not contain it. *)
Definition complete_listings (h : list event) (p : Z) : Prop :=
  forall e b pp names e0, e ∈ h -> ev_q e = QOpendir b p -> asked (ev_s e) p = Some pp -> b_opendir b (backend_path pp) = Ok (names, e0) ->
    e0 = 0 /\ forall i n, names !! i = Some n -> exists st, b_lstat b i (join_path (backend_path pp) n) = Ok st.
Inductive said_absent (e : event) (p : Z) (n : bytes) : Prop :=
| sa_lookup b pp err : ev_q e = QLookup b p n -> asked (ev_s e) p = Some pp -> b_lstat b 0 (pp ++ [47] ++ n) = Err err -> err <> ENOTCONN -> said_absent e p n
| sa_listing b pp names : ev_q e = QOpendir b p -> asked (ev_s e) p = Some pp -> b_opendir b (backend_path pp) = Ok (names, 0) -> n ∉ names -> said_absent e p n
| sa_readlink b c pp err : ev_q e = QReadlink b c -> lookup (s_db (ev_s e)) p n = Ok c -> asked (ev_s e) c = Some pp -> b_readlink b (backend_path pp) = Err err -> err <> ENOTCONN -> said_absent e p n.
Theorem C36_complete_listings : forall W s k h b p n pp s', hist W s k h -> klegal k s (QLookup b p n) -> enough W s (QLookup b p n) ->
  asked s p = Some pp -> b_lstat b 0 (pp ++ [47] ++ n) = Err ENOTCONN -> good_name n -> complete_listings h p -> handles s (QLookup b p n) [RErr ENOENT] s' ->
  exists h1 e h2, h = h1 ++ [e] ++ h2 /\ said_absent e p n /\ Forall (fun e => news (ev_s e) (ev_q e) p n = Silent) h2.
Proof.
  intros W s k h b p n pp s' H Hl Hen Hask El Hv Hcl Hh. destruct (C36_enoent_partial W s k h b p n pp s' H Hl Hen Hask El Hv Hh) as (_ & h1 & e & h2 & -> & Hn & Hs). exists h1, e, h2. split; [reflexivity|]. split; [|exact Hs].
  unfold news in Hn. destruct (ev_q e) as [b' p' n'|x m|fs|x|b' x|b' x|x size off|x|id x|id size off|tag|root] eqn:Eq; try discriminate.
  - destruct (decide (p' = p /\ n' = n)) as [[-> ->]|]; [|discriminate]. destruct (asked (ev_s e) p) as [pp'|] eqn:Ea; [|discriminate]. destruct (b_lstat b' 0 _) as [st|err] eqn:Els; [discriminate|]. destruct (Z.eqb_spec err ENOTCONN); [discriminate|]. eapply sa_lookup; eassumption.
  - destruct (lookup (s_db (ev_s e)) p n) as [c|] eqn:Elk; [|discriminate]. destruct (Z.eqb_spec c x) as [->|]; [|discriminate]. destruct (asked (ev_s e) x) as [pp'|] eqn:Ea; [|discriminate].
    destruct (b_readlink b' _) as [l|err] eqn:Er; [destruct (getattr _ _); [destruct (_ =? _)|]; discriminate|]. destruct (Z.eqb_spec err ENOTCONN); [discriminate|]. eapply sa_readlink; eassumption.
  - destruct (Z.eqb_spec x p) as [->|]; [|discriminate]. destruct (asked (ev_s e) p) as [pp'|] eqn:Ea; [|discriminate]. destruct (b_opendir b' _) as [[names e0]|] eqn:Eo; [|discriminate]. destruct (last_stat _ _ _ _ _ _) eqn:Els; [discriminate|].
    destruct (Hcl e b' pp' names e0) as [-> Hall]; [apply elem_of_app; right; left|assumption..|]. eapply sa_listing; try eassumption. intros Hin. apply elem_of_list_lookup in Hin as [i Hin].
    assert (Hlast : exists j, names !! j = Some n /\ forall j', (j < j')%nat -> names !! j' <> Some n).
    { clear - Hin. revert i Hin. induction names as [|m names IH]; intros i Hin; [rewrite lookup_nil in Hin; discriminate|]. destruct (decide (n ∈ names)) as [Hn|Hn].
      - apply elem_of_list_lookup in Hn as [i' Hi']. destruct (IH i' Hi') as (j & Hj & Hno). exists (S j). split; [exact Hj|]. intros [|j'] Hlt; [lia|]. apply Hno. lia.
      - destruct i as [|i]; [exists 0%nat; split; [exact Hin|]; intros [|j'] Hlt Hj'; [lia|]; apply Hn; eapply elem_of_list_lookup_2; exact Hj'|]. exfalso. apply Hn. eapply elem_of_list_lookup_2. exact Hin. }
    destruct Hlast as (j & Hj & Hno). destruct (Hall j n Hj) as [st Hst]. assert (last_stat b' (backend_path pp') 0 names n None = Some (from_backend_stat st)); [|congruence].
    apply listed_iff. exists j, st. split; [exact Hj|]. split; [exact Hst|]. split; [reflexivity|]. intros j' Hlt Hj'. destruct (Hno j' Hlt Hj').
Qed.
Print Assumptions C36_complete_listings.
(** Without that, the English claim is false: the listing of /d is interrupted by an error
    after "f"; afterwards "g", which exists and was known before, is reported as missing. *)
Definition qs_cut : list request := [QLookup online 1 nD; QOpendir online 2; QLookup online 2 nG; QOpendir changed 2].
Theorem C36_refuted : exists W s k h s', hist W s k h /\ klegal k s (QLookup offline 2 nG) /\ asked s 2 = Some pD /\
  handles s (QLookup offline 2 nG) [RErr ENOENT] s' /\
  (forall e b, e ∈ h -> backend_of (ev_q e) = Some b -> exists st, b_lstat b 0 (pD ++ [47] ++ nG) = Ok st).
Proof.
  destruct (out_ok (sS qs_cut) (QLookup offline 2 nG) ([RErr ENOENT], false)) as (o & E & Eo); [vm_compute; reflexivity|].
  exists (sW qs_cut), (sS qs_cut), (sK qs_cut), (sH qs_cut), (next (sS qs_cut) (QLookup offline 2 nG)). split; [apply sess_hist; qs_ok|].
  split; [apply klegalb_ok; [exact offline_ok|vm_compute; reflexivity]|]. split; [vm_compute; reflexivity|]. split; [exists o; auto|].
  intros e b He Hb. assert (Hh : ev_q <$> sH qs_cut = qs_cut) by (vm_compute; reflexivity). apply (elem_of_list_fmap_1 ev_q) in He. rewrite Hh in He. revert He Hb. generalize (ev_q e). clear. intros q He Hb. unfold qs_cut in He.
  repeat (apply elem_of_cons in He as [->|He]; [cbn in Hb; injection Hb as <-; eexists; reflexivity|]). inversion He.
Qed.
Example C36_sample : complete_listings h1 2 /\ test_flag (s_db s1) 2 SYNCED = Ok true /\ belief h1 2 nD = None.
Proof.
  split; [|split; vm_compute; reflexivity]. intros e b pp names e0 He Hq Ha Ho. apply elem_of_list_lookup in He as [i Hi].
  assert (Hq' : (ev_q <$> h1) !! i = Some (QOpendir b 2)) by (rewrite list_lookup_fmap, Hi; cbn; rewrite Hq; reflexivity).
  assert (Ha' : ((fun e => asked (ev_s e) 2) <$> h1) !! i = Some (Some pp)) by (rewrite list_lookup_fmap, Hi; cbn; rewrite Ha; reflexivity).
  assert (Hh : ev_q <$> h1 = qs1) by (vm_compute; reflexivity). rewrite Hh in Hq'. unfold qs1 in Hq'.
  assert (Hh' : (fun e => asked (ev_s e) 2) <$> h1 = [None; Some pD; Some pD; Some pD; Some pD; Some pD; Some pD]) by (vm_compute; reflexivity). rewrite Hh' in Ha'. clear Hi Hh Hh'.
  destruct i as [|[|[|[|[|[|[|i]]]]]]]; cbn in Hq'; try discriminate Hq'. injection Hq' as <-. cbn in Ha'. injection Ha' as <-. vm_compute in Ho. injection Ho as <- <-. split; [reflexivity|].
  intros [|[|i]] n Hn; cbn in Hn; [injection Hn as <-; eexists; vm_compute; reflexivity..|discriminate].
Qed.

(** ** C37: inodes the kernel holds *)
Theorem C37_held : forall W s k h x, hist W s k h -> 0 < kcount k x ->
  exists a, getattr (s_db s) x = Ok a /\ handles s (QGetattr x) [RAttr x a] s.
Proof.
  intros W s k h x H Hx. destruct (hist_inv _ _ _ _ H) as (HF & _). assert (Hr : 0 < refcount (s_refs s) x) by (pose proof (fi_k _ _ _ HF x); lia). pose proof (dr_held _ _ _ (fi_dr _ _ _ HF) x Hr) as Hp.
  destruct (d_inodes (s_db s) !! x) as [i|] eqn:Ei; [|contradiction]. exists (i_attr i). assert (Hg : getattr (s_db s) x = Ok (i_attr i)) by (unfold getattr; rewrite Ei; reflexivity). split; [exact Hg|].
  apply handles_one. cbn [fstep]. unfold h_getattr. rewrite Hg. reflexivity.
Qed.
Print Assumptions C37_held.
(** a directory stays a directory, so that the kernel's later requests for it make sense *)
Theorem C37_held_type : forall W s k h x a, hist W s k h -> 0 < kcount k x -> x ∈ k_dirs k -> getattr (s_db s) x = Ok a -> ftype (a_mode a) = S_IFDIR.
Proof. intros W s k h x a H Hx Hd Hg. destruct (hist_inv _ _ _ _ H) as (HF & _). apply getattr_Ok in Hg as (i & Hi & <-). apply (fi_kd _ _ _ HF x Hd). exact Hi. Qed.
(** /d was removed but the kernel holds it *)
Example C37_sample : kcount (sK qs_removed) 2 = 1 /\ asked (sS qs_removed) 2 = None /\ getattr (s_db (sS qs_removed)) 2 = Ok dirA.
Proof. vm_compute. auto. Qed.

(** ** C38: lookup counts *)
(** The cache never holds fewer references than the kernel, and exactly as many in every
    history without readdirplus. *)
Theorem C38_at_least : forall W s k h x, hist W s k h -> 0 <= kcount k x <= refcount (s_refs s) x.
Proof. intros W s k h x H. destruct (hist_inv _ _ _ _ H) as (HF & _). apply (fi_k _ _ _ HF). Qed.
Definition is_plus (q : request) : Prop := match q with QPlusRun _ _ _ => True | _ => False end.
Theorem C38_balanced_partial : forall W s k h x, hist W s k h -> Forall (fun e => ~ is_plus (ev_q e)) h -> refcount (s_refs s) x = kcount k x.
Proof.
  intros W s k h x H. induction H as [root d r Ha E|W s k h q s' o sent H IH Hl Hen E Es]; intros Hp.
  - destruct (open_cache_spec root db_empty (init_db_inv root)) as (R & _ & E' & _). rewrite E' in E. injection E as <- <-. cbn [s_refs]. rewrite refcount_doom_all. unfold refcount, kcount, k0. cbn [k_cnt]. rewrite !lookup_empty. reflexivity.
  - destruct (hist_inv _ _ _ _ H) as (HF & HA & _). apply Forall_app in Hp as [Hp Hq]. inversion Hq as [|? ? Hq' _]; subst. cbn [ev_q] in Hq'. specialize (IH Hp).
    pose proof (step_counts W s k q s' o sent x HF HA Hl Hen E Es) as Hc. unfold unheld in Hc. destruct q; try lia. destruct (Hq' I).
Qed.
Print Assumptions C38_balanced_partial.
(** Exactly what readdirplus leaks.  [scan] lists the entries of the directory in the snapshot
    from the offset on; those whose inodes are being removed are left out; the reply has the
    longest prefix [pre] of the rest whose size is below [size].  The next entry is locked too but
    not sent; if the reply is an error, all entries before it stay locked. *)
Theorem C38_plus_leak : forall W s k h id size off s' sent x, hist W s k h -> klegal k s (QPlusRun id size off) -> enough W s (QPlusRun id size off) ->
  handles s (QPlusRun id size off) sent s' ->
  let k' := kstep k (QPlusRun id size off) sent in
  exists snap dir l e pre post, s_plus s !! id = Some (snap, dir) /\ scan snap dir (w64 off) l e /\
    fits direntplus_size size (filter (kept (s_refs s)) (map to_bent l)) pre post /\
    (sent = [RBuf (concat (map rec_plus pre))] /\
       refcount (s_refs s') x - kcount k' x = refcount (s_refs s) x - kcount k x + (if 0 <? size then uses x (take 1 post) else 0) \/
     (exists err, sent = [RErr err]) /\ (is_orphan snap dir \/ pre = []) /\
       refcount (s_refs s') x - kcount k' x = refcount (s_refs s) x - kcount k x + uses x pre).
Proof.
  intros W s k h id size off s' sent x H Hl Hen (o & E & Es) k'. destruct (hist_inv _ _ _ _ H) as (HF & HA & _).
  destruct (step_counts W s k (QPlusRun id size off) s' o sent x HF HA Hl Hen E Es) as (snap & dir & l & e & pre & post & Hid & Hsc & Hfit & Hcase). unfold unheld in Hcase. fold k' in Hcase.
  exists snap, dir, l, e, pre, post. split; [exact Hid|]. split; [exact Hsc|]. split; [exact Hfit|]. destruct Hcase as [[-> Hu]|[(-> & _ & _ & Ho & Hu)|(-> & _ & -> & Hu)]].
  - left. auto.
  - right. split; [eauto|]. split; [left; exact Ho|exact Hu].
  - right. split; [eauto|]. assert (pre = []) as ->. { destruct Hfit as (Hf & _). cbn in Hf. symmetry in Hf. apply app_eq_nil in Hf as [-> _]. reflexivity. } split; [auto|]. change (uses x []) with 0. lia.
Qed.
Print Assumptions C38_plus_leak.
(** a directory with two files, a buffer with room for one *)
Definition qs_leak : list request := [QLookup online 1 nD; QOpendir online 2; QPlusBegin 0 2; QPlusRun 0 320 1].
Theorem C38_refuted : exists W s k h x, hist W s k h /\ kcount k x = 0 /\ refcount (s_refs s) x = 1.
Proof.
  exists (sW qs_leak), (sS qs_leak), (sK qs_leak), (sH qs_leak), 4. split; [apply sess_hist; qs_ok|]. split; vm_compute; reflexivity.
Qed.
Example C38_sample : Forall (fun e => ~ is_plus (ev_q e)) h1 /\ kcount k1 2 = 1 /\ kcount k1 4 = 0.
Proof.
  split; [|split; vm_compute; reflexivity]. apply (Forall_fmap ev_q (fun q => ~ is_plus q)). assert (Hh : ev_q <$> h1 = qs1) by (vm_compute; reflexivity). rewrite Hh. unfold qs1. repeat (constructor; [cbn; tauto|]). constructor.
Qed.

(** ** C41: opendir synchronises the directory *)
(** After a connected opendir the cache has exactly the listed names whose lstat succeeded (and
    which the cache accepts), with the attributes of their last successful lstat, and the
    directory counts as completely known. *)
Theorem C41_sync : forall W s k h b x pp names e0, hist W s k h -> klegal k s (QOpendir b x) -> enough W s (QOpendir b x) ->
  asked s x = Some pp -> b_opendir b (backend_path pp) = Ok (names, e0) ->
  exists s', handles s (QOpendir b x) [ROpen] s' /\ test_flag (s_db s') x SYNCED = Ok true /\
    forall n a, (exists c, lookup (s_db s') x n = Ok c /\ getattr (s_db s') c = Ok a) <-> good_name n /\ listed b (backend_path pp) names n a.
Proof.
  intros W s k h b x pp names e0 H Hl Hen Hask Ho. destruct (hist_inv _ _ _ _ H) as (HF & HA & HW). destruct Hl as [Hk Hb]. unfold enough in Hen.
  pose proof (fi_dr _ _ _ HF) as Hdr. pose proof (dr_inv _ _ _ Hdr) as Hi. pose proof (kdir_is_dir _ _ _ _ HF Hk) as Hdir.
  destruct (h_opendir_total W s k b x HF Hk ltac:(lia)) as (s' & l & E & Hc & Hs). exists s'.
  destruct Hc as [Hw|comps e Hw El He|comps Hw El|comps names' e0' t1 t2 m t3 r t4 Hw El E1 HSW E2' HS2 Hm Hm' E3 E4];
    try (rewrite (asked_walk _ _ _ Hi Hw) in Hask; injection Hask as <-); try congruence; [rewrite asked_none in Hask by assumption; discriminate|].
  assert (names' = names) by congruence. subst names'. split; [apply handles_one; cbn [fstep]; rewrite E; reflexivity|].
  assert (Hi' : Inv (t_db t4)). { pose proof (s_inv _ _ _ (session_inv _ _ _ HS2)) as HT2. assert (HS3 : session x t3 m) by (eapply ses_flags; eassumption). destruct (session_finish x t3 m HS3) as (res & t4' & E4' & _ & HT4 & _). rewrite E4 in E4'. injection E4' as _ <-. exact (tinv_db _ HT4). }
  assert (Hux : u64 x) by (destruct Hdir as (i & Hix & _); apply (inode_range _ _ _ Hi Hix)).
  destruct (sync_facts_ok s b x comps names t1 t2 m t3 r t4 Hdir E1 HSW E2' HS2 Hm Hm' E3 E4) as [_ _ Hhere _ Hfl _]. cbn [s_db after set_dbr]. split; [exact Hfl|].
  intros n a. rewrite <- listed_iff, good_name_iff, <- Hhere. split; intros [c Hc]; exists c; apply knows_kn; auto.
Qed.
Print Assumptions C41_sync.
(** If the listing contains acceptable names only and every lstat succeeds: exactly the names listed. *)
Theorem C41_exact : forall W s k h b x pp names e0 s', hist W s k h -> klegal k s (QOpendir b x) -> enough W s (QOpendir b x) ->
  asked s x = Some pp -> b_opendir b (backend_path pp) = Ok (names, e0) -> handles s (QOpendir b x) [ROpen] s' ->
  Forall good_name names -> (forall i n, names !! i = Some n -> exists st, b_lstat b i (join_path (backend_path pp) n) = Ok st) ->
  forall n, (exists c, lookup (s_db s') x n = Ok c) <-> n ∈ names.
Proof.
  intros W s k h b x pp names e0 s' H Hl Hen Hask Ho Hh Hg Hall n. destruct (C41_sync W s k h b x pp names e0 H Hl Hen Hask Ho) as (s2 & Hh2 & _ & Hs). destruct (handles_fun _ _ _ _ _ _ Hh Hh2) as [_ <-].
  assert (H' : hist (W + weight s (QOpendir b x)) s' (kstep k (QOpendir b x) [ROpen]) (h ++ [Ev s (QOpendir b x) [ROpen]])) by (destruct Hh as (o & E & Es); econstructor; eassumption).
  destruct (hist_inv _ _ _ _ H') as (HF' & _). pose proof (dr_inv _ _ _ (fi_dr _ _ _ HF')) as Hi'. split.
  - intros [c Hc]. assert (Ha : exists a, getattr (s_db s') c = Ok a).
    { destruct (hist_inv _ _ _ _ H) as (HF & _). pose proof (kdir_is_dir _ _ _ _ HF (proj1 Hl)) as (i & Hix & _). assert (Hux : u64 x) by apply (inode_range _ _ _ (dr_inv _ _ _ (fi_dr _ _ _ HF)) Hix).
      apply lookup_treei in Hc as (e & He & _); [|assumption..]. destruct (treei_facts _ _ _ _ Hi' He) as (_ & Hh' & _). exact Hh'. }
    destruct Ha as [a Ha]. destruct (proj1 (Hs n a)) as [_ (i & st & Hi & _)]; [eauto|]. eapply elem_of_list_lookup_2. exact Hi.
  - intros Hin. assert (Hlast : exists j, names !! j = Some n /\ forall j', (j < j')%nat -> names !! j' <> Some n).
    { clear - Hin. apply elem_of_list_lookup in Hin as [i Hin]. revert i Hin. induction names as [|m names IH]; intros i Hin; [rewrite lookup_nil in Hin; discriminate|]. destruct (decide (n ∈ names)) as [Hn|Hn].
      - apply elem_of_list_lookup in Hn as [i' Hi']. destruct (IH i' Hi') as (j & Hj & Hno). exists (S j). split; [exact Hj|]. intros [|j'] Hlt; [lia|]. apply Hno. lia.
      - destruct i as [|i]; [exists 0%nat; split; [exact Hin|]; intros [|j'] Hlt Hj'; [lia|]; apply Hn; eapply elem_of_list_lookup_2; exact Hj'|]. exfalso. apply Hn. eapply elem_of_list_lookup_2. exact Hin. }
    destruct Hlast as (j & Hj & Hno). destruct (Hall j n Hj) as [st Hst]. destruct (proj2 (Hs n (from_backend_stat st))) as (c & Hc & _); [|eauto]. split; [rewrite Forall_forall in Hg; auto|].
    exists j, st. split; [exact Hj|]. split; [exact Hst|]. split; [reflexivity|]. intros j' Hlt Hj'. destruct (Hno j' Hlt Hj').
Qed.
Print Assumptions C41_exact.
(** Where the backend is asked: for the directory [x] at the path [pp] ("" is the root, which is asked
    for as "/"), and for an entry of its listing at [pp]/entry.  (The path "/" itself belongs to an entry
    with an empty name in the root, which only a backend that lists such a name makes.) *)
Theorem C41_where : forall W s k h x pp n, hist W s k h -> asked s x = Some pp ->
  (backend_path pp = if decide (pp = []) then [47] else pp) /\ (pp <> [47] -> join_path (backend_path pp) n = pp ++ [47] ++ n).
Proof.
  intros W s k h x pp n H Ha. destruct (hist_inv _ _ _ _ H) as (HF & _). pose proof (dr_inv _ _ _ (fi_dr _ _ _ HF)) as Hi. apply asked_some in Ha as (comps & Hw & ->); [|exact Hi].
  split; [destruct (spell comps); reflexivity|]. intros Hne. destruct comps as [|[|c m] comps]; [reflexivity| |reflexivity]. destruct comps as [|m comps]; [destruct Hne; reflexivity|reflexivity].
Qed.
Print Assumptions C41_where.
(** offline, opendir succeeds without a change; an error of a connected backend is passed on without a change *)
Theorem C41_other : forall W s k h b x, hist W s k h -> klegal k s (QOpendir b x) -> enough W s (QOpendir b x) ->
  (asked s x = None -> handles s (QOpendir b x) [RErr ENOENT] s) /\
  (forall pp e, asked s x = Some pp -> b_opendir b (backend_path pp) = Err e -> handles s (QOpendir b x) [if e =? ENOTCONN then ROpen else RErr e] s).
Proof.
  intros W s k h b x H Hl Hen. destruct (hist_inv _ _ _ _ H) as (HF & HA & HW). destruct Hl as [Hk Hb]. unfold enough in Hen. pose proof (dr_inv _ _ _ (fi_dr _ _ _ HF)) as Hi.
  destruct (h_opendir_total W s k b x HF Hk ltac:(lia)) as (s' & l & E & Hc & _). split.
  - intros Hask. destruct Hc; try (rewrite (asked_walk _ _ _ Hi H0) in Hask; discriminate). apply handles_one. cbn [fstep]. rewrite E. reflexivity.
  - intros pp e Hask He. destruct Hc as [Hw|comps e' Hw El He'|comps Hw El|comps names' e0' t1 t2 m t3 r t4 Hw El E1 HSW E2' HS2 Hm Hm' E3 E4];
      try (rewrite (asked_walk _ _ _ Hi Hw) in Hask; injection Hask as <-); try congruence; [rewrite asked_none in Hask by assumption; discriminate|..].
    + assert (e' = e) by congruence. subst e'. apply Z.eqb_neq in He'. rewrite He'. apply handles_one. cbn [fstep]. rewrite E. reflexivity.
    + assert (e = ENOTCONN) by congruence. subst e. cbn. apply handles_one. cbn [fstep]. rewrite E. reflexivity.
Qed.
Example C41_sample :
  klegal k1 s1 (QOpendir online 2) /\ enough W1 s1 (QOpendir online 2) /\ asked s1 2 = Some pD /\ b_opendir online (backend_path pD) = Ok ([nF; nG], 0) /\ Forall good_name [nF; nG] /\
  (forall i n, [nF; nG] !! i = Some n -> exists st, b_lstat online i (join_path (backend_path pD) n) = Ok st).
Proof.
  split; [apply klegalb_ok; [exact online_ok|vm_compute; reflexivity]|]. split; [vm_compute; reflexivity|]. split; [vm_compute; reflexivity|]. split; [reflexivity|].
  split; [repeat constructor; try (cbn; lia); unfold nF, nG; set_solver|]. intros [|[|i]] n Hn; cbn in Hn; [injection Hn as <-; eexists; vm_compute; reflexivity..|discriminate].
Qed.
