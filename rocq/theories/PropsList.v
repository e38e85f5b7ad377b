(** C71: listing a directory that is named by its path, connected and disconnected. *)
From Verif Require Export FsFlags PropsWalk PropsFs2.

(** ** Specification *)
(** The way of a program to the directory [names]: one lookup per component; it ends at the
    inode [x].  [es] are the requests and replies. *)
Inductive cd (b : backend) : fstate -> Z -> list bytes -> list event -> Z -> fstate -> Prop :=
| cd_here s p : cd b s p [] [] p s
| cd_down s p n rest c a s1 es x s' : handles s (QLookup b p n) [REntry c a] s1 -> ftype (a_mode a) = S_IFDIR -> cd b s1 c rest es x s' ->
    cd b s p (n :: rest) (Ev s (QLookup b p n) [REntry c a] :: es) x s'.
(** "ls names": it goes there, opens the directory and reads it with buffers of the given [sizes];
    it gets the entries [l], and [r] is the reply that ends it: empty, or an error. *)
Definition ls (b : backend) (s : fstate) (names : list bytes) (sizes : list Z) (es : list event) (l : list kent) (r : reply) (s' : fstate) : Prop :=
  exists es1 x s1, cd b s ROOT_INO names es1 x s1 /\ handles s1 (QOpendir b x) [ROpen] s' /\ es = es1 ++ [Ev s1 (QOpendir b x) [ROpen]] /\ read_all s' x 0 sizes = Some (l, r).
Definition cut_off (b : backend) : Prop := disconnected b /\ forall p, b_opendir b p = Err ENOTCONN.
(** the names a listing shows, without "." and ".." *)
Definition shows (l : list kent) (n : bytes) : Prop := n ∈ map ke_name l /\ ~ special n.

(** ** The way *)
Lemma cd_hist b names : backend_ok b -> forall W s k h p pre es x s', hist W s k h -> kdir k p -> twalk (s_db s) pre p S_IFDIR -> W + 2 * Z.of_nat (length names) + 3 < 2 ^ 63 ->
  cd b s p names es x s' -> exists W' k', hist W' s' k' (h ++ es) /\ W <= W' <= W + 2 * Z.of_nat (length names) /\ kdir k' x /\ twalk (s_db s') (pre ++ names) x S_IFDIR.
Proof.
  intros Hb. induction names as [|n names IH]; intros W s k h p pre es x s' H Hk Hw HW HS; inversion HS as [|? ? ? ? c a s1 es1 ? ? Hh Ht HS']; subst; cbn [length] in *.
  - exists W, k. rewrite !app_nil_r. split; [exact H|]. split; [lia|auto].
  - assert (Hl : klegal k s (QLookup b p n)) by (split; assumption). assert (Hen : enough W s (QLookup b p n)) by (unfold enough; cbn [weight]; lia).
    pose proof (handles_hist _ _ _ _ _ _ _ H Hl Hen Hh) as H1. cbn [weight] in H1. pose proof (lookup_twalk _ _ _ _ _ _ _ _ _ _ _ H Hl Hen Hw Hh) as Hw1. rewrite Ht in Hw1.
    destruct (IH _ _ _ _ _ _ _ _ _ H1 (told_kdir W s k h b p n _ _ H Ht) Hw1 ltac:(lia) HS') as (W' & k' & H2 & HW2 & Hk2 & Hw2). exists W', k'. rewrite <- app_assoc in H2, Hw2. cbn [app] in H2, Hw2. split; [exact H2|]. split; [lia|auto].
Qed.
Lemma cd_offline b names : backend_ok b -> disconnected b -> forall W s k h p pre es x s', hist W s k h -> kdir k p -> twalk (s_db s) pre p S_IFDIR -> W + 2 * Z.of_nat (length names) + 3 < 2 ^ 63 -> Forall good_name names ->
  cd b s p names es x s' -> s_db s' = s_db s.
Proof.
  intros Hb Hd. induction names as [|n names IH]; intros W s k h p pre es x s' H Hk Hw HW Hg HS; inversion HS as [|? ? ? ? c a s1 es1 ? ? Hh Ht HS']; subst; cbn [length] in *; [reflexivity|]. inversion Hg as [|? ? Hg1 Hg2]; subst.
  assert (Hl : klegal k s (QLookup b p n)) by (split; assumption). assert (Hen : enough W s (QLookup b p n)) by (unfold enough; cbn [weight]; lia).
  pose proof (handles_hist _ _ _ _ _ _ _ H Hl Hen Hh) as H1. cbn [weight] in H1. pose proof (lookup_twalk _ _ _ _ _ _ _ _ _ _ _ H Hl Hen Hw Hh) as Hw1. rewrite Ht in Hw1.
  rewrite (IH _ _ _ _ _ _ _ _ _ H1 (told_kdir W s k h b p n _ _ H Ht) Hw1 ltac:(lia) Hg2 HS'). destruct (lookup_replies _ _ _ _ _ _ _ _ H Hl Hen Hg1 Hw) as (r0 & s0 & Hh0 & Hr0). rewrite Hd, Z.eqb_refl in Hr0. destruct (handles_fun _ _ _ _ _ _ Hh0 Hh) as [_ <-]. apply Hr0.
Qed.
Lemma good_noslash names : Forall good_name names -> Forall noslash names.
Proof. intros H. eapply Forall_impl; [exact H|]. intros z Hz. apply Hz. Qed.
Lemma special_dots x p c n : (c, n) ∈ dots x p -> special n.
Proof. unfold dots. intros H. apply elem_of_cons in H as [E|H]; [injection E as _ ->; left; reflexivity|]. destruct (x =? ROOT_INO); [inversion H|]. apply elem_of_list_singleton in H. injection H as _ ->. right. reflexivity. Qed.
Lemma read_all_more x more : forall sizes s off l r, read_all s x off sizes = Some (l, r) -> read_all s x off (sizes ++ more) = Some (l, r).
Proof.
  induction sizes as [|z sizes IH]; intros s off l r; [discriminate|]. cbn [app read_all]. destruct (fstep s (QReaddir x z off)) as [[s' [[|q0 [|q1 l0]]|]]| | |]; auto. destruct q0; auto.
  destruct (last (kernel_reads b)) as [y|]; [|auto]. destruct (read_all s' x (ke_off y) sizes) as [[l1 r1]|] eqn:E; [|discriminate]. rewrite (IH _ _ _ _ E). auto.
Qed.
(** reading a directory to its end *)
Lemma read_end W s k h x pre sizes l r : hist W s k h -> W + 3 < 2 ^ 63 -> twalk (s_db s) pre x S_IFDIR -> Forall (fun z => 528 < z) sizes ->
  read_all s x 0 sizes = Some (l, r) ->
  r = (match test_flag (s_db s) x SYNCED with Ok true => RBuf [] | _ => RErr EIO end) /\ forall n, shows l n <-> ~ special n /\ exists c, lookup (s_db s) x n = Ok c.
Proof.
  intros H HW Hw Hs E. pose proof (hist_Inv _ _ _ _ H) as Hi. pose proof (twalk_walk _ _ _ _ Hi Hw) as Hp. pose proof (asked_walk _ _ _ Hi Hp) as Ha. assert (Hu : u64 x) by (eapply walk_u64; [exact Hi|exact u64_1|exact Hp]).
  set (names := (map_to_list (d_treen (s_db s))).*1.*2). set (more := replicate (S (S (S (length names)))) 529).
  assert (Hr : Forall (roomy (s_db s) x) (sizes ++ more)).
  { apply Forall_app. split; [eapply Forall_impl; [exact Hs|intros z Hz; eapply C39_room; eassumption]|]. apply Forall_replicate. eapply C39_room; [eassumption..|lia]. }
  destruct (C39_alone W s k h x (sizes ++ more) names H HW ltac:(congruence)) as (p & l' & l2 & E' & Hpp & El & _ & _ & Hl2); [|exact Hr|unfold more; rewrite app_length, replicate_length; lia|].
  { intros n c Hl. apply lookup_Ok in Hl as (_ & e & He & _); [|exact Hi|exact Hu]. unfold names. apply elem_of_list_fmap. exists (x, n). split; [reflexivity|]. apply elem_of_list_fmap. exists ((x, n), e). split; [reflexivity|]. apply elem_of_map_to_list. exact He. }
  rewrite (read_all_more _ more _ _ _ _ _ E) in E'. injection E' as -> ->. split; [reflexivity|]. intros n.
  assert (En : map ke_name l' = map snd (dots x p ++ l2)) by (rewrite <- El, map_map; reflexivity). unfold shows. rewrite En. split.
  - intros [Hin Hns]. split; [exact Hns|]. apply elem_of_list_fmap in Hin as ([c n'] & -> & Hin). apply elem_of_app in Hin as [Hin|Hin]; [destruct Hns; eapply special_dots; exact Hin|]. exists c. apply Hl2. exact Hin.
  - intros [Hns [c Hc]]. split; [|exact Hns]. apply elem_of_list_fmap. exists (c, n). split; [reflexivity|]. apply elem_of_app. right. apply Hl2. exact Hc.
Qed.
Lemma lookup_has W s k h pre x n : hist W s k h -> twalk (s_db s) pre x S_IFDIR -> (exists c, lookup (s_db s) x n = Ok c) <-> exists a, has_at (s_db s) pre n a.
Proof.
  intros H Hw. pose proof (hist_Inv _ _ _ _ H) as Hi. pose proof (twalk_walk _ _ _ _ Hi Hw) as Hp. assert (Hu : u64 x) by (eapply walk_u64; [exact Hi|exact u64_1|exact Hp]). split.
  - intros [c Hl]. apply lookup_Ok in Hl as (_ & e & He & <-); [|exact Hi|exact Hu]. destruct (treen_child _ _ _ _ Hi He) as (_ & _ & i & Hie & _). exists (i_attr i), x, (de_ino e). split; [exact Hw|]. exists e, i. auto.
  - intros (a & p & c & Hp2 & Hk). destruct (twalk_fun _ _ _ _ _ _ Hi Hw Hp2) as [<- _]. exists c. eapply kn_lookup; eassumption.
Qed.
Lemma flag_marked W s k h pre x : hist W s k h -> twalk (s_db s) pre x S_IFDIR -> marked_at (s_db s) pre <-> test_flag (s_db s) x SYNCED = Ok true.
Proof. intros H Hw. pose proof (hist_Inv _ _ _ _ H) as Hi. split; [intros (y & Hy & Hf)|exists x; auto]. destruct (twalk_fun _ _ _ _ _ _ Hi Hw Hy) as [<- _]. exact Hf. Qed.

(** ** Disconnected *)
(** A listing shows the names about which the last word of the backend was that they are there; it
    ends regularly if it counts as complete, and otherwise with the error EIO. *)
Theorem C71_offline : forall W s k h b names sizes c es l r s', hist W s k h -> backend_ok b -> cut_off b -> W + 2 * Z.of_nat (length names) + 3 < 2 ^ 63 ->
  Forall good_name names -> Forall (fun z => 528 < z) sizes -> complete h names c -> ls b s names sizes es l r s' ->
  r = (if c then RBuf [] else RErr EIO) /\ forall n, shows l n <-> ~ special n /\ good_name n /\ exists a, believed h names n (Some a).
Proof.
  intros W s k h b names sizes c es l r s' H Hb [Hd Ho] HW Hg Hs Hc (es1 & x & s1 & HS & Hh & -> & Er).
  destruct (cd_hist b names Hb W s k h ROOT_INO [] es1 x s1 H ltac:(left; reflexivity) ltac:(constructor) HW HS) as (W1 & k1 & H1 & HW1 & Hk1 & Hw1). cbn [app] in Hw1.
  pose proof (cd_offline b names Hb Hd W s k h ROOT_INO [] es1 x s1 H ltac:(left; reflexivity) ltac:(constructor) HW Hg HS) as Ed.
  pose proof (hist_Inv _ _ _ _ H1) as Hi1. pose proof (asked_walk _ _ _ Hi1 (twalk_walk _ _ _ _ Hi1 Hw1)) as Ha.
  assert (Hl : klegal k1 s1 (QOpendir b x)) by (split; assumption).
  assert (Hen : enough W1 s1 (QOpendir b x)) by (unfold enough; cbn [weight]; destruct (path (s_db s1) x) as [[pp|]| | |]; rewrite ?Ho; lia).
  destruct (C41_other _ _ _ _ _ _ H1 Hl Hen) as [_ Hoff]. pose proof (Hoff _ _ Ha (Ho _)) as Hh'. cbn in Hh'. destruct (handles_fun _ _ _ _ _ _ Hh' Hh) as [_ <-].
  destruct (read_end _ _ _ _ _ _ _ _ _ H1 ltac:(lia) Hw1 Hs Er) as [-> Hshow]. pose proof (good_noslash _ Hg) as Hns.
  rewrite Ed in Hw1, Hshow |- *. split.
  - pose proof (complete_marked _ _ _ Hc Hns _ _ _ H) as Hm. rewrite (flag_marked _ _ _ _ _ _ H Hw1) in Hm. destruct c; [rewrite (proj2 Hm eq_refl); reflexivity|].
    destruct (test_flag (s_db s) x SYNCED) as [[]|]; try reflexivity. discriminate (proj1 Hm eq_refl).
  - intros n. rewrite Hshow, (lookup_has _ _ _ _ _ _ n H Hw1). split.
    + intros [Hsp (a & Hat)]. split; [exact Hsp|]. assert (Hv : valid_name n) by (destruct Hat as (p & c' & _ & Hk); eapply kn_valid; [eapply hist_Inv; exact H|exact Hk]). split; [apply good_name_iff; exact Hv|]. exists a.
      destruct (believed_total h names n) as [o Hbo]. assert (o = Some a) as -> by (apply (believed_holds _ _ _ _ Hbo Hns Hv _ _ _ H); exact Hat). exact Hbo.
    + intros (Hsp & Hgn & a & Hbel). split; [exact Hsp|]. exists a. apply (believed_holds _ _ _ _ Hbel Hns (proj1 (good_name_iff n) Hgn) _ _ _ H). reflexivity.
Qed.
Print Assumptions C71_offline.

Lemma twalk_cut d pre names x : twalk d (pre ++ names) x S_IFDIR -> exists p, twalk d pre p S_IFDIR.
Proof.
  revert x. induction names as [|n names IH] using rev_ind; intros x H; [rewrite app_nil_r in H; eauto|]. rewrite app_assoc in H. apply twalk_inv in H as (p & a & Hp & _). eauto.
Qed.
Lemma cd_exists b names : backend_ok b -> disconnected b -> forall W s k h p pre x, hist W s k h -> kdir k p -> twalk (s_db s) pre p S_IFDIR -> W + 2 * Z.of_nat (length names) + 3 < 2 ^ 63 -> Forall good_name names ->
  twalk (s_db s) (pre ++ names) x S_IFDIR -> exists es s', cd b s p names es x s'.
Proof.
  intros Hb Hd. induction names as [|n names IH]; intros W s k h p pre x H Hk Hw HW Hg Hx; pose proof (hist_Inv _ _ _ _ H) as Hi.
  - rewrite app_nil_r in Hx. destruct (twalk_fun _ _ _ _ _ _ Hi Hw Hx) as [<- _]. exists [], s. constructor.
  - inversion Hg as [|? ? Hg1 Hg2]; subst. cbn [length] in HW. assert (Hl : klegal k s (QLookup b p n)) by (split; assumption). assert (Hen : enough W s (QLookup b p n)) by (unfold enough; cbn [weight]; lia).
    replace (pre ++ n :: names) with ((pre ++ [n]) ++ names) in Hx by (rewrite <- app_assoc; reflexivity). destruct (twalk_cut _ _ _ _ Hx) as [c Hc]. pose proof Hc as Hc'. apply twalk_inv in Hc' as (p' & a & Hp' & Hkn & Ht). destruct (twalk_fun _ _ _ _ _ _ Hi Hw Hp') as [<- _].
    destruct (lookup_replies _ _ _ _ _ _ _ _ H Hl Hen Hg1 Hw) as (r0 & s0 & Hh0 & Hr0). rewrite Hd, Z.eqb_refl in Hr0. destruct Hr0 as [Ed [(c1 & a1 & -> & Hk1)|[_ Hno]]]; [|destruct (Hno _ _ Hkn)]. destruct (kn_fun _ _ _ _ _ _ _ Hkn Hk1) as [<- <-].
    pose proof (handles_hist _ _ _ _ _ _ _ H Hl Hen Hh0) as H1. cbn [weight] in H1. rewrite <- Ed in Hc, Hx. destruct (IH _ _ _ _ _ _ _ H1 (told_kdir W s k h b p n _ _ H Ht) Hc ltac:(lia) Hg2 Hx) as (es & s' & HS). eexists _, s'. econstructor; eassumption.
Qed.
(** Such a listing is possible if the last word about the path was that it is a directory. *)
Theorem C71_offline_possible : forall W s k h b names, hist W s k h -> backend_ok b -> cut_off b -> W + 2 * Z.of_nat (length names) + 3 < 2 ^ 63 ->
  Forall good_name names -> (names = [] \/ exists pre n a, names = pre ++ [n] /\ believed h pre n (Some a) /\ ftype (a_mode a) = S_IFDIR) ->
  exists N, forall sizes, Forall (fun z => 528 < z) sizes -> (N < length sizes)%nat -> exists es l r s', ls b s names sizes es l r s'.
Proof.
  intros W s k h b names H Hb [Hd Ho] HW Hg Hor. pose proof (hist_Inv _ _ _ _ H) as Hi.
  assert (Hx : exists x, twalk (s_db s) names x S_IFDIR).
  { destruct Hor as [->|(pre & n & a & -> & Hbel & Ht)]; [eexists; constructor|]. pose proof (good_noslash _ Hg) as Hns. apply Forall_app in Hg as [_ Hg]. inversion Hg; subst. apply Forall_app in Hns as [Hns _].
    destruct (proj2 (believed_holds _ _ _ _ Hbel Hns ltac:(apply good_name_iff; assumption) _ _ _ H a) eq_refl) as (p & c & Hp & Hk). exists c. rewrite <- Ht. econstructor; eassumption. }
  destruct Hx as [x Hx]. destruct (cd_exists b names Hb Hd W s k h ROOT_INO [] x H ltac:(left; reflexivity) ltac:(constructor) HW Hg Hx) as (es1 & s1 & HS).
  destruct (cd_hist b names Hb W s k h ROOT_INO [] es1 x s1 H ltac:(left; reflexivity) ltac:(constructor) HW HS) as (W1 & k1 & H1 & HW1 & Hk1 & Hw1). cbn [app] in Hw1. pose proof (hist_Inv _ _ _ _ H1) as Hi1. pose proof (twalk_walk _ _ _ _ Hi1 Hw1) as Hp1. pose proof (asked_walk _ _ _ Hi1 Hp1) as Ha.
  assert (Hl : klegal k1 s1 (QOpendir b x)) by (split; assumption).
  assert (Hen : enough W1 s1 (QOpendir b x)) by (unfold enough; cbn [weight]; destruct (path (s_db s1) x) as [[pp|]| | |]; rewrite ?Ho; lia).
  destruct (C41_other _ _ _ _ _ _ H1 Hl Hen) as [_ Hoff]. pose proof (Hoff _ _ Ha (Ho _)) as Hh'. cbn in Hh'. assert (Hu : u64 x) by (eapply walk_u64; [exact Hi1|exact u64_1|exact Hp1]).
  set (all := (map_to_list (d_treen (s_db s1))).*1.*2). exists (length all + 2)%nat. intros sizes Hs Hlen.
  destruct (C39_alone W1 s1 k1 _ x sizes all H1 ltac:(lia) ltac:(congruence)) as (p & l & l2 & E & _); [|eapply Forall_impl; [exact Hs|intros z Hz; eapply C39_room; eassumption]|exact Hlen|].
  { intros n c Hl'. apply lookup_Ok in Hl' as (_ & e & He & _); [|exact Hi1|exact Hu]. unfold all. apply elem_of_list_fmap. exists (x, n). split; [reflexivity|]. apply elem_of_list_fmap. exists ((x, n), e). split; [reflexivity|]. apply elem_of_map_to_list. exact He. }
  eexists _, l, _, s1. exists es1, x, s1. split; [exact HS|]. split; [exact Hh'|]. split; [reflexivity|exact E].
Qed.
Print Assumptions C71_offline_possible.

(** ** Connected *)
(** A listing shows what the backend lists, and ends regularly. *)
Theorem C71_online : forall W s k h b names sizes ents e0 es l r s', hist W s k h -> backend_ok b -> W + 2 * Z.of_nat (length names) + Z.of_nat (length ents) + 3 < 2 ^ 63 ->
  Forall (fun z => 528 < z) sizes -> b_opendir b (backend_path (spell names)) = Ok (ents, e0) -> ls b s names sizes es l r s' ->
  r = RBuf [] /\ forall n, shows l n <-> ~ special n /\ good_name n /\ exists a, listed b (backend_path (spell names)) ents n a.
Proof.
  intros W s k h b names sizes ents e0 es l r s' H Hb HW Hs Ho (es1 & x & s1 & HS & Hh & -> & Er).
  destruct (cd_hist b names Hb W s k h ROOT_INO [] es1 x s1 H ltac:(left; reflexivity) ltac:(constructor) ltac:(lia) HS) as (W1 & k1 & H1 & HW1 & Hk1 & Hw1). cbn [app] in Hw1.
  pose proof (hist_Inv _ _ _ _ H1) as Hi1. pose proof (asked_walk _ _ _ Hi1 (twalk_walk _ _ _ _ Hi1 Hw1)) as Ha.
  assert (Hl : klegal k1 s1 (QOpendir b x)) by (split; assumption).
  assert (Hwe : weight s1 (QOpendir b x) = Z.of_nat (length ents)) by (cbn [weight]; unfold asked in Ha; destruct (path (s_db s1) x) as [[pp|]| | |]; try discriminate; injection Ha as ->; rewrite Ho; reflexivity).
  assert (Hen : enough W1 s1 (QOpendir b x)) by (unfold enough; rewrite Hwe; lia).
  destruct (C41_sync _ _ _ _ _ _ _ _ _ H1 Hl Hen Ha Ho) as (s2 & Hh' & Hf & Hlist). destruct (handles_fun _ _ _ _ _ _ Hh' Hh) as [_ ->].
  pose proof (handles_hist _ _ _ _ _ _ _ H1 Hl Hen Hh) as H2. assert (Hw2 : twalk (s_db s') names x S_IFDIR).
  { pose proof (hist_Inv _ _ _ _ H2) as Hi2. destruct Hh as (o & E & _). destruct (twalk_step _ _ _ _ _ _ _ _ _ _ H1 Hl Hen E Hi2 Hw1) as [?|(pre1 & m & post & -> & (Ha1 & _))]; [assumption|exfalso].
    rewrite Ha in Ha1. injection Ha1 as Ha1. pose proof (twalk_names _ _ _ _ Hi1 Hw1) as Hn. apply spell_inj in Ha1; [|exact Hn|apply Forall_app in Hn; tauto]. apply (f_equal length) in Ha1. rewrite app_length in Ha1. cbn [length] in Ha1. lia. }
  destruct (read_end _ _ _ _ _ _ _ _ _ H2 ltac:(rewrite Hwe; lia) Hw2 Hs Er) as [-> Hshow]. rewrite Hf. split; [reflexivity|]. intros n. rewrite Hshow. split.
  - intros [Hsp [c Hc]]. split; [exact Hsp|]. pose proof (hist_Inv _ _ _ _ H2) as Hi2. destruct (proj1 (lookup_has _ _ _ _ _ _ n H2 Hw2) (ex_intro _ c Hc)) as (a & p & c' & Hp & Hk). destruct (twalk_fun _ _ _ _ _ _ Hi2 Hw2 Hp) as [<- _].
    assert (Hu : u64 x) by (eapply walk_u64; [exact Hi2|exact u64_1|eapply twalk_walk; eassumption]). destruct (proj2 (knows_kn _ _ _ _ _ Hi2 Hu) Hk) as [Hk1' Hk2']. destruct (proj1 (Hlist n a)) as [Hg Hli]; [eauto|]. eauto.
  - intros (Hsp & Hgn & a & Hli). split; [exact Hsp|]. destruct (proj2 (Hlist n a) (conj Hgn Hli)) as (c & Hc & _). eauto.
Qed.
Print Assumptions C71_online.

(** ** From one to the other *)
(** What a program saw in a listing while connected it sees disconnected, and the listing ends
    regularly, as long as no request in between heard anything about the directory, about its
    entries or against its path. *)
Definition undisturbed (names : list bytes) (e : event) : Prop :=
  ~ denies_path (ev_s e) (ev_q e) names S_IFDIR /\ ~ tells_path (ev_s e) (ev_q e) names /\ forall n, word_of (ev_s e) (ev_q e) names n = Nothing.
Theorem C71_kept : forall W0 s0 k0 h0 b0 names sizes0 ents e0 es0 l0 r0 s1 h W s k b sizes es l r s', hist W0 s0 k0 h0 -> backend_ok b0 ->
  W0 + 2 * Z.of_nat (length names) + Z.of_nat (length ents) + 3 < 2 ^ 63 -> Forall good_name names -> Forall (fun z => 528 < z) sizes0 ->
  b_opendir b0 (backend_path (spell names)) = Ok (ents, e0) -> ls b0 s0 names sizes0 es0 l0 r0 s1 ->
  hist W s k ((h0 ++ es0) ++ h) -> Forall (undisturbed names) h ->
  backend_ok b -> cut_off b -> W + 2 * Z.of_nat (length names) + 3 < 2 ^ 63 -> Forall (fun z => 528 < z) sizes -> ls b s names sizes es l r s' ->
  r0 = RBuf [] /\ r = RBuf [] /\ forall n, shows l n <-> shows l0 n.
Proof.
  intros W0 s0 k0 h0 b0 names sizes0 ents e0 es0 l0 r0 s1 h W s k b sizes es l r s' H0 Hb0 HW0 Hg Hs0 Ho HL0 H Hq Hb Hoff HW Hs HL. pose proof (good_noslash _ Hg) as Hns.
  destruct (C71_online _ _ _ _ _ _ _ _ _ _ _ _ _ H0 Hb0 HW0 Hs0 Ho HL0) as [-> Hshow0]. split; [reflexivity|].
  (* the state after the first listing *)
  assert (H1 : exists W1 k1 es1 x s2, es0 = es1 ++ [Ev s2 (QOpendir b0 x) [ROpen]] /\ asked s2 x = Some (spell names) /\ hist W1 s1 k1 (h0 ++ es0)).
  { destruct HL0 as (es1 & x & s2 & HS & Hh & -> & _). destruct (cd_hist b0 names Hb0 W0 s0 k0 h0 ROOT_INO [] es1 x s2 H0 ltac:(left; reflexivity) ltac:(constructor) ltac:(lia) HS) as (W1 & k1 & H1 & HW1 & Hk1 & Hw1). cbn [app] in Hw1.
    pose proof (hist_Inv _ _ _ _ H1) as Hi1. pose proof (asked_walk _ _ _ Hi1 (twalk_walk _ _ _ _ Hi1 Hw1)) as Ha. assert (Hl : klegal k1 s2 (QOpendir b0 x)) by (split; assumption).
    assert (Hwe : weight s2 (QOpendir b0 x) = Z.of_nat (length ents)) by (cbn [weight]; unfold asked in Ha; destruct (path (s_db s2) x) as [[pp|]| | |]; try discriminate; injection Ha as ->; rewrite Ho; reflexivity).
    pose proof (handles_hist _ _ _ _ _ _ _ H1 Hl ltac:(unfold enough; rewrite Hwe; lia) Hh) as H2. rewrite app_assoc. eexists _, _, es1, x, s2. split; [reflexivity|]. split; [exact Ha|exact H2]. }
  destruct H1 as (W1 & k1 & es1 & x & s2 & -> & Ha & H1).
  assert (Hc1 : complete (h0 ++ es1 ++ [Ev s2 (QOpendir b0 x) [ROpen]]) names true) by (rewrite app_assoc; apply com_list; cbn [ev_s ev_q lists_path]; eauto).
  assert (Hc : complete ((h0 ++ es1 ++ [Ev s2 (QOpendir b0 x) [ROpen]]) ++ h) names true).
  { clear H HL HW. induction h as [|e h IH] using rev_ind; [rewrite app_nil_r; exact Hc1|]. apply Forall_app in Hq as [Hq1 Hq2]. inversion Hq2 as [|? ? (Hd & Ht & Hw) _]; subst. rewrite app_assoc.
    destruct (lists_path_or (ev_s e) (ev_q e) names) as [Hli|Hli]; [apply com_list; exact Hli|apply com_same; auto]. }
  destruct (C71_offline _ _ _ _ _ _ _ _ _ _ _ _ H Hb Hoff HW Hg Hs Hc HL) as [-> Hshow]. split; [reflexivity|]. intros n. rewrite Hshow, Hshow0. apply and_iff_compat_l.
  destruct (believed_total (h0 ++ es1 ++ [Ev s2 (QOpendir b0 x) [ROpen]]) names n) as [o Hbo].
  assert (Hbo2 : believed ((h0 ++ es1 ++ [Ev s2 (QOpendir b0 x) [ROpen]]) ++ h) names n o).
  { clear H HL HW Hc Hshow. induction h as [|e h IH] using rev_ind; [rewrite app_nil_r; exact Hbo|]. apply Forall_app in Hq as [Hq1 Hq2]. inversion Hq2 as [|? ? (Hd & Ht & Hw) _]; subst. rewrite app_assoc. pose proof (bel_word _ e _ _ _ (IH Hq1) Hd) as HB. rewrite Hw in HB. exact HB. }
  assert (Ho1 : o = last_stat b0 (backend_path (spell names)) 0 ents n None).
  { rewrite app_assoc in Hbo. inversion Hbo as [? ? E|h' e' ? ? Hd' E|h' e' ? ? o2 Hb' Hnd' E]; [destruct (h0 ++ es1); discriminate| |]; apply app_inj_tail in E as [-> ->].
    - exfalso. cbn [ev_s ev_q] in Hd'. destruct Hd' as (pre1 & m & post & -> & (Ha1 & _)). rewrite Ha in Ha1. injection Ha1 as Ha1. apply spell_inj in Ha1; [|exact Hns|apply Forall_app in Hns; tauto]. apply (f_equal length) in Ha1. rewrite app_length in Ha1. cbn [length] in Ha1. lia.
    - cbn [ev_s ev_q word_of]. rewrite decide_True by exact Ha. rewrite Ho. destruct (last_stat _ _ _ _ _ _); reflexivity. }
  split.
  - intros (Hgn & a & Hba). split; [exact Hgn|]. exists a. apply listed_iff. rewrite <- Ho1. eapply believed_fun; eassumption.
  - intros (Hgn & a & Hli). split; [exact Hgn|]. exists a. apply listed_iff in Hli. rewrite <- Hli, <- Ho1. exact Hbo2.
Qed.
Print Assumptions C71_kept.

(** ** A name that is not there *)
(** Disconnected, a name about which nothing is known, or that is known to be missing, gives ENOENT
    exactly if the listing of its directory counts as complete, and EIO otherwise. *)
Theorem C71_missing : forall W s k h b p names n c, hist W s k h -> klegal k s (QLookup b p n) -> enough W s (QLookup b p n) -> disconnected b ->
  Forall good_name names -> good_name n -> asked s p = Some (spell names) -> complete h names c -> believed h names n None ->
  exists s', handles s (QLookup b p n) [RErr (if c then ENOENT else EIO)] s' /\ s_db s' = s_db s.
Proof.
  intros W s k h b p names n c H Hl Hen Hd Hg Hgn Ha Hc Hbel. pose proof (hist_Inv _ _ _ _ H) as Hi. destruct (hist_inv _ _ _ _ H) as (HF & _). pose proof (good_noslash _ Hg) as Hns. pose proof (asked_spell _ _ _ Hi Hns Ha) as Hw.
  assert (Htw : twalk (s_db s) names p S_IFDIR) by (apply walk_twalk; [exact Hi|exact Hw|eapply kdir_is_dir; [exact HF|apply Hl]]).
  destruct (C35_offline _ _ _ _ _ _ _ _ H Hl Hen Ha (Hd _ _) Hgn) as (s' & r & Hh & Hdb & Hr). exists s'. split; [|exact Hdb].
  assert (Hu : u64 p) by (eapply walk_u64; [exact Hi|exact u64_1|exact Hw]). destruct (belief_kn _ _ _ _ p n H (proj1 (good_name_iff n) Hgn) Hu) as [Hlost|Hb2]; [destruct (asked_not_lost _ _ _ Hi Ha Hlost)|].
  destruct (belief h p n) as [a|].
  - exfalso. destruct (proj2 (Hb2 a) eq_refl) as [c' Hk]. assert (None = Some a) by (apply (believed_holds _ _ _ _ Hbel Hns (proj1 (good_name_iff n) Hgn) _ _ _ H); exists p, c'; auto). discriminate.
  - subst r. pose proof (complete_marked _ _ _ Hc Hns _ _ _ H) as Hm. rewrite (flag_marked _ _ _ _ _ _ H Htw) in Hm. destruct c; [rewrite (proj2 Hm eq_refl) in Hh; exact Hh|].
    destruct (test_flag (s_db s) p SYNCED) as [[]|]; try exact Hh. discriminate (proj1 Hm eq_refl).
Qed.
Print Assumptions C71_missing.

(** ** Samples *)
Fixpoint run_cd (b : backend) (s : fstate) (p : Z) (names : list bytes) : option (list event * Z * fstate) :=
  match names with
  | [] => Some ([], p, s)
  | n :: rest =>
    match out s (QLookup b p n) with
    | Some ([REntry c a], false) =>
      if ftype (a_mode a) =? S_IFDIR then
        match run_cd b (next s (QLookup b p n)) c rest with Some (es, x, s') => Some (Ev s (QLookup b p n) [REntry c a] :: es, x, s') | None => None end
      else None
    | _ => None
    end
  end.
Lemma run_cd_ok b names : forall s p es x s', run_cd b s p names = Some (es, x, s') -> cd b s p names es x s'.
Proof.
  induction names as [|n names IH]; intros s p es x s' E; cbn [run_cd] in E; [injection E as <- <- <-; constructor|].
  destruct (out s (QLookup b p n)) as [[[|[] [|? ?]] []]|] eqn:Eo; try discriminate E. destruct (Z.eqb_spec (ftype (a_mode a)) S_IFDIR) as [Ht|]; [|discriminate E].
  destruct (run_cd b (next s (QLookup b p n)) ino names) as [[[es1 x1] s1]|] eqn:Ec; [|discriminate E]. injection E as <- <- <-. econstructor; [|exact Ht|apply IH; exact Ec]. destruct (out_ok _ _ _ Eo) as (o & E1 & E2). exists o. auto.
Qed.
Definition run_ls (b : backend) (s : fstate) (names : list bytes) (sizes : list Z) : option (list event * list kent * reply * fstate) :=
  match run_cd b s ROOT_INO names with
  | Some (es, x, s1) =>
    match out s1 (QOpendir b x) with
    | Some ([ROpen], false) =>
      match read_all (next s1 (QOpendir b x)) x 0 sizes with
      | Some (l, r) => Some (es ++ [Ev s1 (QOpendir b x) [ROpen]], l, r, next s1 (QOpendir b x))
      | None => None
      end
    | _ => None
    end
  | None => None
  end.
Lemma run_ls_ok b s names sizes es l r s' : run_ls b s names sizes = Some (es, l, r, s') -> ls b s names sizes es l r s'.
Proof.
  unfold run_ls. destruct (run_cd b s ROOT_INO names) as [[[es1 x] s1]|] eqn:Ec; [|discriminate]. destruct (out s1 (QOpendir b x)) as [[[|[] [|? ?]] []]|] eqn:Eo; try discriminate.
  destruct (read_all (next s1 (QOpendir b x)) x 0 sizes) as [[l1 r1]|] eqn:Er; [|discriminate]. intros E. injection E as <- <- <- <-. exists es1, x, s1. split; [apply run_cd_ok; exact Ec|]. destruct (out_ok _ _ _ Eo) as (o & E1 & E2). split; [exists o; auto|]. auto.
Qed.
Definition same_reply (r r' : reply) : bool := match r, r' with RBuf x, RBuf y => match x, y with [], [] => true | _, _ => false end | RErr e, RErr e' => e =? e' | _, _ => false end.
Lemma same_reply_ok r r' : same_reply r r' = true -> r = r'.
Proof. destruct r, r'; cbn; try discriminate; repeat match goal with |- context [?a =? ?b] => destruct (Z.eqb_spec a b); [|discriminate] | |- context [match ?l with [] => _ | _ :: _ => _ end] => destruct l; try discriminate end; congruence. Qed.
Definition ls_gives (b : backend) (s : fstate) (names : list bytes) (sizes : list Z) (shown : list bytes) (r : reply) : bool :=
  match run_ls b s names sizes with Some (_, l, r', _) => bool_decide (map ke_name l = shown) && same_reply r' r | None => false end.
Lemma ls_gives_ok b s names sizes shown r : ls_gives b s names sizes shown r = true -> exists es l s', ls b s names sizes es l r s' /\ map ke_name l = shown.
Proof.
  unfold ls_gives. destruct (run_ls b s names sizes) as [[[[es l] r'] s']|] eqn:E; [|discriminate]. intros H. apply andb_prop in H as [H1 H2]. apply bool_decide_eq_true_1 in H1. apply same_reply_ok in H2. subst r'. exists es, l, s'. split; [apply run_ls_ok; exact E|exact H1].
Qed.
Definition bigs : list Z := [1000; 1000; 1000; 1000].
(** /d is listed, nothing is heard about it any more: the listing is the same after a restart,
    disconnected.  Nothing is known about the rest of the root. *)
Definition qs71 : list request := [QLookup online 1 nD; QOpendir online 2; QRestart rootA; QLookup online 1 nF].
(** /d is listed and then looked up again: *)
Definition qs71b : list request := [QLookup online 1 nD; QOpendir online 2; QLookup online 1 nD].
(** /d is listed and then the root, where it is: *)
Definition qs71c : list request := [QLookup online 1 nD; QOpendir online 2; QOpendir online 1].
Lemma hist71 : hist (sW qs71) (sS qs71) (sK qs71) (sH qs71). Proof. apply sess_hist. qs_ok. Qed.
Lemma hist71b : hist (sW qs71b) (sS qs71b) (sK qs71b) (sH qs71b). Proof. apply sess_hist. qs_ok. Qed.
Lemma hist71c : hist (sW qs71c) (sS qs71c) (sK qs71c) (sH qs71c). Proof. apply sess_hist. qs_ok. Qed.
Lemma offline_cut : cut_off offline. Proof. split; [split; intros; reflexivity|intros; reflexivity]. Qed.
Example C71_sample : cut_off offline /\ Forall good_name [nD] /\ Forall (fun z => 528 < z) bigs /\ hist (sW qs71) (sS qs71) (sK qs71) (sH qs71) /\
  (exists es l s', ls offline (sS qs71) [nD] bigs es l (RBuf []) s' /\ map ke_name l = [DOT; DOTDOT; nF; nG]) /\
  (exists es l s', ls offline (sS qs71) [] bigs es l (RErr EIO) s' /\ map ke_name l = [DOT; nD; nF]) /\
  (exists es l s', ls online (sS qs71) [] bigs es l (RBuf []) s' /\ map ke_name l = [DOT; nD; nF; nL]).
Proof.
  split; [exact offline_cut|]. split; [apply Forall_cons; split; [split; [cbn; lia|unfold nD; split; set_solver]|apply Forall_nil; exact I]|]. split; [unfold bigs; repeat (apply Forall_cons; split; [lia|]); apply Forall_nil; exact I|]. split; [exact hist71|].
  split; [apply ls_gives_ok; vm_compute; reflexivity|]. split; apply ls_gives_ok; vm_compute; reflexivity.
Qed.
(** The claim that a directory that was listed once can be listed again while disconnected is false:
    to look at the directory again, or at its siblings, is enough - and that is what a program
    does first, when the next listing is to be made.  Then names that are not there are not
    reported as missing either. *)
Theorem C71_refuted : forall qs, qs = qs71b \/ qs = qs71c ->
  hist (sW qs) (sS qs) (sK qs) (sH qs) /\ (exists e, e ∈ sH qs /\ lists_path (ev_s e) (ev_q e) [nD]) /\ Forall (fun e => backend_of (ev_q e) = Some online) (sH qs) /\
  (exists es l s', ls offline (sS qs) [nD] bigs es l (RErr EIO) s' /\ map ke_name l = [DOT; DOTDOT; nF; nG]) /\
  exists s', handles (sS qs) (QLookup offline 2 nL) [RErr EIO] s'.
Proof.
  assert (Hgen : forall qs, hist (sW qs) (sS qs) (sK qs) (sH qs) -> map ev_q (sH qs) = qs -> qs !! 1%nat = Some (QOpendir online 2) -> match sH qs !! 1%nat with Some e => asked (ev_s e) 2 = Some pD | None => False end ->
    Forall (fun q => backend_of q = Some online) qs -> ls_gives offline (sS qs) [nD] bigs [DOT; DOTDOT; nF; nG] (RErr EIO) = true -> out (sS qs) (QLookup offline 2 nL) = Some ([RErr EIO], false) ->
    hist (sW qs) (sS qs) (sK qs) (sH qs) /\ (exists e, e ∈ sH qs /\ lists_path (ev_s e) (ev_q e) [nD]) /\ Forall (fun e => backend_of (ev_q e) = Some online) (sH qs) /\
    (exists es l s', ls offline (sS qs) [nD] bigs es l (RErr EIO) s' /\ map ke_name l = [DOT; DOTDOT; nF; nG]) /\ exists s', handles (sS qs) (QLookup offline 2 nL) [RErr EIO] s').
  { intros qs H Hq Hq1 He Hb Hls Ho. split; [exact H|]. split.
    - destruct (sH qs !! 1%nat) as [e|] eqn:E1; [|contradiction]. exists e. split; [eapply elem_of_list_lookup_2; exact E1|]. assert (Hqe : ev_q e = QOpendir online 2). { rewrite <- Hq in Hq1. rewrite list_lookup_fmap, E1 in Hq1. cbn in Hq1. congruence. }
      rewrite Hqe. cbn [lists_path]. split; [exact He|]. eexists. reflexivity.
    - split; [rewrite <- Hq in Hb; apply Forall_fmap in Hb; exact Hb|]. split; [apply ls_gives_ok; exact Hls|]. destruct (out_ok _ _ _ Ho) as (o & E & Eo). eexists. exists o. split; [exact E|exact Eo]. }
  intros qs [->| ->]; (apply Hgen; [first [exact hist71b|exact hist71c]|vm_compute; reflexivity|reflexivity|vm_compute; reflexivity| |vm_compute; reflexivity|vm_compute; reflexivity]); repeat (apply Forall_cons; split; [reflexivity|]); apply Forall_nil; exact I.
Qed.
Print Assumptions C71_refuted.
