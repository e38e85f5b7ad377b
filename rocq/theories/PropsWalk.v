(** C70: paths.  What a program sees that names a file of the mount by its path: the kernel turns
    the path into one lookup per component. *)
From Verif Require Export FsPaths.
From Verif Require Import PropsFs.

(** ** Specification *)
(** [stat] of the path [names] below the directory [p], while the backend behaves as [b]: one
    lookup after the other; an error ends it, and so does a component that is no directory.
    [es] are the requests and replies. *)
Inductive stats (b : backend) : fstate -> Z -> list bytes -> list event -> res attrs -> fstate -> Prop :=
| stats_last s p n c a s' : handles s (QLookup b p n) [REntry c a] s' -> stats b s p [n] [Ev s (QLookup b p n) [REntry c a]] (Ok a) s'
| stats_error s p n rest e s' : handles s (QLookup b p n) [RErr e] s' -> stats b s p (n :: rest) [Ev s (QLookup b p n) [RErr e]] (Err e) s'
| stats_notdir s p n m rest c a s' : handles s (QLookup b p n) [REntry c a] s' -> ftype (a_mode a) <> S_IFDIR ->
    stats b s p (n :: m :: rest) [Ev s (QLookup b p n) [REntry c a]] (Err ENOTDIR) s'
| stats_more s p n m rest c a s1 es r s' : handles s (QLookup b p n) [REntry c a] s1 -> ftype (a_mode a) = S_IFDIR ->
    stats b s1 c (m :: rest) es r s' -> stats b s p (n :: m :: rest) (Ev s (QLookup b p n) [REntry c a] :: es) r s'.
(** the same, asking the backend directly for the path "/names" *)
Fixpoint direct (b : backend) (pre names : list bytes) : res attrs :=
  match names with
  | [] => Err ENOENT
  | n :: rest =>
    match b_lstat b 0 (spell (pre ++ [n])) with
    | Err e => Err e
    | Ok st =>
      match rest with
      | [] => Ok (from_backend_stat st)
      | _ => if ftype (a_mode st) =? S_IFDIR then direct b (pre ++ [n]) rest else Err ENOTDIR
      end
    end
  end.
Definition connected (b : backend) : Prop := forall i p, b_lstat b i p <> Err ENOTCONN.
Definition disconnected (b : backend) : Prop := forall i p, b_lstat b i p = Err ENOTCONN.
(** a backend whose paths form a tree: what is found below [pre] shows that [pre] is a directory *)
Definition tree_like (b : backend) : Prop := forall pre n st, pre <> [] -> b_lstat b 0 (spell (pre ++ [n])) = Ok st ->
  exists sd, b_lstat b 0 (spell pre) = Ok sd /\ ftype (a_mode sd) = S_IFDIR.

(** ** The path of an inode *)
(** The backend is asked about an inode under the path the kernel knows it by. *)
Theorem C70_path : forall W s k h x names ty pp, hist W s k h -> known_as h x names ty -> asked s x = Some pp -> pp = spell names.
Proof.
  intros W s k h x names ty pp H Hk Ha. pose proof (hist_Inv _ _ _ _ H) as Hi. destruct (asked_some _ _ _ Hi Ha) as (comps & Hw & ->). destruct (known_only _ _ _ _ Hk _ _ _ H) as [_ Ho]. rewrite (Ho _ Hw). reflexivity.
Qed.
Print Assumptions C70_path.
(** It has that path, and no request about it is refused for want of one, until the backend says
    that some component of the path is not there or is of another type. *)
Theorem C70_lost : forall W s k h x names ty, hist W s k h -> known_as h x names ty ->
  asked s x = Some (spell names) \/ exists e, e ∈ h /\ denies_path (ev_s e) (ev_q e) names ty.
Proof.
  intros W s k h x names ty H Hk. pose proof (hist_Inv _ _ _ _ H) as Hi. destruct (known_or_denied _ _ _ _ Hk _ _ _ H) as [Hw|Hd]; [left|right; exact Hd]. apply asked_walk; [exact Hi|]. eapply twalk_walk; eassumption.
Qed.
Print Assumptions C70_lost.
(** So a lookup in a directory known by a path is answered with what the backend says about that
    path and the name. *)
Theorem C70_lookup : forall W s k h b p names n, hist W s k h -> klegal k s (QLookup b p n) -> enough W s (QLookup b p n) -> good_name n ->
  known_as h p names S_IFDIR -> (forall e, e ∈ h -> ~ denies_path (ev_s e) (ev_q e) names S_IFDIR) ->
  match b_lstat b 0 (spell (names ++ [n])) with
  | Ok st => exists c s', handles s (QLookup b p n) [REntry c (from_backend_stat st)] s' /\
      known_as (h ++ [Ev s (QLookup b p n) [REntry c (from_backend_stat st)]]) c (names ++ [n]) (ftype (a_mode st))
  | Err e => e <> ENOTCONN -> exists s', handles s (QLookup b p n) [RErr e] s'
  end.
Proof.
  intros W s k h b p names n H Hl Hen Hg Hk Hnd. destruct (C70_lost _ _ _ _ _ _ _ H Hk) as [Ha|(e & He & Hd)]; [|destruct (Hnd e He Hd)]. rewrite spell_snoc. destruct (b_lstat b 0 (spell names ++ [47] ++ n)) as [st|e] eqn:El.
  - destruct (C34_connected _ _ _ _ _ _ _ _ _ H Hl Hen Ha El Hg) as (c & s' & Hh & _). exists c, s'. split; [exact Hh|]. change (a_mode st) with (a_mode (from_backend_stat st)). apply ka_lookup. exact Hk.
  - intros Hne. destruct (C34_connected_error W s k h b p n _ e H Hl Hen Ha El Hne) as (s' & Hh & _). exists s'. exact Hh.
Qed.
Print Assumptions C70_lookup.

(** ** One component *)
Lemma handles_hist W s k h q sent s' : hist W s k h -> klegal k s q -> enough W s q -> handles s q sent s' -> hist (W + weight s q) s' (kstep k q sent) (h ++ [Ev s q sent]).
Proof. intros H Hl Hen (o & E & Es). econstructor; eassumption. Qed.
Lemma told_kdir W s k h b p n c a : hist W s k h -> ftype (a_mode a) = S_IFDIR -> kdir (kstep k (QLookup b p n) [REntry c a]) c.
Proof.
  intros H Ht. destruct (hist_inv _ _ _ _ H) as (HF & _). right. cbn [kstep]. split.
  - unfold told. cbn [k_dirs]. rewrite Ht, Z.eqb_refl. apply elem_of_union_l, elem_of_singleton_2. reflexivity.
  - rewrite kcount_told, Z.eqb_refl. pose proof (fi_k _ _ _ HF c). lia.
Qed.
Lemma not_above s b p pre n : Inv (s_db s) -> twalk (s_db s) pre p S_IFDIR -> ~ denies_path s (QLookup b p n) pre S_IFDIR.
Proof.
  intros Hi Hw (pre1 & m & post & -> & (_ & Ha & _)). rewrite (asked_walk _ _ _ Hi (twalk_walk _ _ _ _ Hi Hw)) in Ha. injection Ha as Ha. pose proof (twalk_names _ _ _ _ Hi Hw) as Hn. apply spell_inj in Ha; [|exact Hn|apply Forall_app in Hn; tauto].
  apply (f_equal length) in Ha. rewrite app_length in Ha. cbn [length] in Ha. lia.
Qed.
Lemma lookup_twalk W s k h b p pre n c a s' : hist W s k h -> klegal k s (QLookup b p n) -> enough W s (QLookup b p n) -> twalk (s_db s) pre p S_IFDIR ->
  handles s (QLookup b p n) [REntry c a] s' -> twalk (s_db s') (pre ++ [n]) c (ftype (a_mode a)).
Proof.
  intros H Hl Hen Hw Hh. pose proof (handles_hist _ _ _ _ _ _ _ H Hl Hen Hh) as H'. pose proof (hist_Inv _ _ _ _ H) as Hi. pose proof (hist_Inv _ _ _ _ H') as Hi'. destruct Hh as (o & E & Es).
  destruct (twalk_step _ _ _ _ _ _ _ _ _ _ H Hl Hen E Hi' Hw) as [Hw'|Hd]; [|destruct (not_above _ _ _ _ _ Hi Hw Hd)]. econstructor; [exact Hw'|]. eapply lookup_announced; exact H'.
Qed.
(** what one lookup replies *)
Lemma lookup_replies W s k h b p pre n : hist W s k h -> klegal k s (QLookup b p n) -> enough W s (QLookup b p n) -> good_name n -> twalk (s_db s) pre p S_IFDIR ->
  exists r s', handles s (QLookup b p n) [r] s' /\
    match b_lstat b 0 (spell (pre ++ [n])) with
    | Ok st => exists c, r = REntry c (from_backend_stat st)
    | Err e => if e =? ENOTCONN then s_db s' = s_db s /\ ((exists c a, r = REntry c a /\ kn (s_db s) p n c a) \/ (exists e, r = RErr e /\ (e = ENOENT \/ e = EIO)) /\ forall c a, ~ kn (s_db s) p n c a) else r = RErr e
    end.
Proof.
  intros H Hl Hen Hg Hw. pose proof (hist_Inv _ _ _ _ H) as Hi. pose proof (twalk_walk _ _ _ _ Hi Hw) as Hp. pose proof (asked_walk _ _ _ Hi Hp) as Ha. rewrite spell_snoc.
  destruct (b_lstat b 0 (spell pre ++ [47] ++ n)) as [st|e] eqn:El.
  - destruct (C34_connected _ _ _ _ _ _ _ _ _ H Hl Hen Ha El Hg) as (c & s' & Hh & _). eexists _, s'. split; [exact Hh|]. eauto.
  - destruct (Z.eqb_spec e ENOTCONN) as [->|Hne].
    + destruct (C35_offline _ _ _ _ _ _ _ _ H Hl Hen Ha El Hg) as (s' & r & Hh & Hd & Hr). exists r, s'. split; [exact Hh|]. split; [exact Hd|].
      assert (Hu : u64 p) by (eapply walk_u64; [exact Hi|exact u64_1|exact Hp]). destruct (belief_kn _ _ _ _ p n H (proj1 (good_name_iff n) Hg) Hu) as [Hlost|Hbel]; [destruct (asked_not_lost _ _ _ Hi Ha Hlost)|].
      destruct (belief h p n) as [a|] eqn:Eb.
      * left. destruct Hr as (c & -> & Hlk). destruct (proj2 (Hbel a) eq_refl) as [c' Hk]. exists c, a. split; [reflexivity|]. destruct (proj2 (knows_kn _ _ _ _ _ Hi Hu) Hk) as [Hlk' _]. replace c with c' by congruence. exact Hk.
      * right. split; [exists (match test_flag (s_db s) p SYNCED with Ok true => ENOENT | _ => EIO end); split; [exact Hr|destruct (test_flag (s_db s) p SYNCED) as [[]|]; auto]|]. intros c a Hk. assert (Hx : None = Some a) by (apply Hbel; eauto). discriminate.
    + destruct (C34_connected_error W s k h b p n _ e H Hl Hen Ha El Hne) as (s' & Hh & _). eexists _, s'. split; [exact Hh|reflexivity].
Qed.

(** ** Whole paths *)
Lemma stats_hist b names : backend_ok b -> forall W s k h p pre es r s', hist W s k h -> kdir k p -> twalk (s_db s) pre p S_IFDIR -> W + 2 * Z.of_nat (length names) + 3 < 2 ^ 63 ->
  stats b s p names es r s' -> exists W' k', hist W' s' k' (h ++ es) /\ W <= W' <= W + 2 * Z.of_nat (length names).
Proof.
  intros Hb. induction names as [|n names IH]; intros W s k h p pre es r s' H Hk Hw HW HS; [inversion HS|]. cbn [length] in HW.
  assert (Hl : klegal k s (QLookup b p n)) by (split; assumption). assert (Hen : enough W s (QLookup b p n)) by (unfold enough; cbn [weight]; lia).
  assert (Hone : forall sent s1, handles s (QLookup b p n) sent s1 -> exists W' k', hist W' s1 k' (h ++ [Ev s (QLookup b p n) sent]) /\ W <= W' <= W + 2 * Z.of_nat (length (n :: names))).
  { intros sent s1 Hh. eexists _, _. split; [eapply handles_hist; eassumption|]. cbn [weight length]. lia. }
  inversion HS as [? ? ? c a ? Hh|? ? ? ? e ? Hh|? ? ? m rest c a ? Hh Ht|? ? ? m rest c a s1 es1 ? ? Hh Ht HS']; subst; try (eapply Hone; eassumption).
  pose proof (handles_hist _ _ _ _ _ _ _ H Hl Hen Hh) as H1. cbn [weight] in H1. pose proof (lookup_twalk _ _ _ _ _ _ _ _ _ _ _ H Hl Hen Hw Hh) as Hw1. rewrite Ht in Hw1.
  destruct (IH _ _ _ _ _ _ _ _ _ H1 (told_kdir W s k h b p n _ _ H Ht) Hw1 ltac:(lia) HS') as (W' & k' & H2 & HW2). exists W', k'. rewrite <- app_assoc in H2. cbn [app] in H2. split; [exact H2|]. cbn [length] in *. lia.
Qed.
Lemma stats_online b names : backend_ok b -> connected b -> forall W s k h p pre, hist W s k h -> kdir k p -> twalk (s_db s) pre p S_IFDIR -> W + 2 * Z.of_nat (length names) + 3 < 2 ^ 63 ->
  names <> [] -> Forall good_name names -> (exists es r s', stats b s p names es r s') /\ forall es r s', stats b s p names es r s' -> r = direct b pre names.
Proof.
  intros Hb Hc. induction names as [|n names IH]; intros W s k h p pre H Hk Hw HW Hne Hg; [contradiction|]. cbn [length] in HW. inversion Hg as [|? ? Hgn Hgs]; subst.
  assert (Hl : klegal k s (QLookup b p n)) by (split; assumption). assert (Hen : enough W s (QLookup b p n)) by (unfold enough; cbn [weight]; lia).
  destruct (lookup_replies _ _ _ _ _ _ _ _ H Hl Hen Hgn Hw) as (r0 & s0 & Hh0 & Hr0). cbn [direct]. destruct (b_lstat b 0 (spell (pre ++ [n]))) as [st|e] eqn:El.
  - destruct Hr0 as [c0 ->]. pose proof (handles_hist _ _ _ _ _ _ _ H Hl Hen Hh0) as H1. cbn [weight] in H1. pose proof (lookup_twalk _ _ _ _ _ _ _ _ _ _ _ H Hl Hen Hw Hh0) as Hw1. change (a_mode (from_backend_stat st)) with (a_mode st) in Hw1.
    destruct names as [|m rest].
    + split; [eexists _, _, _; eapply stats_last; exact Hh0|]. intros es r s' HS. inversion HS as [? ? ? c a ? Hh|? ? ? ? e ? Hh| |]; subst; destruct (handles_fun _ _ _ _ _ _ Hh0 Hh) as [Er _]; congruence.
    + destruct (Z.eqb_spec (ftype (a_mode st)) S_IFDIR) as [Ht|Ht].
      * rewrite Ht in Hw1. destruct (IH _ _ _ _ _ _ H1 (told_kdir W s k h b p n _ _ H Ht) Hw1 ltac:(lia) ltac:(discriminate) Hgs) as [(es1 & r1 & s1 & HS1) Hall]. split; [eexists _, _, _; eapply stats_more; [exact Hh0|exact Ht|exact HS1]|].
        intros es r s' HS. inversion HS as [? ? ? c a ? Hh|? ? ? ? e ? Hh|? ? ? m' rest' c a ? Hh Ht'|? ? ? m' rest' c a s1' es1' ? ? Hh Ht' HS']; subst; destruct (handles_fun _ _ _ _ _ _ Hh0 Hh) as [Er Es]; [discriminate|injection Er as <- <-; contradiction|]. injection Er as <- <-. subst s1'. eapply Hall; exact HS'.
      * split; [eexists _, _, _; eapply stats_notdir; [exact Hh0|exact Ht]|]. intros es r s' HS. inversion HS as [? ? ? c a ? Hh|? ? ? ? e ? Hh|? ? ? m' rest' c a ? Hh Ht'|? ? ? m' rest' c a s1' es1' ? ? Hh Ht' HS']; subst; destruct (handles_fun _ _ _ _ _ _ Hh0 Hh) as [Er Es]; [discriminate|reflexivity|]. injection Er as <- <-. contradiction.
  - assert (e <> ENOTCONN) by (intros ->; exact (Hc _ _ El)). destruct (Z.eqb_spec e ENOTCONN); [contradiction|]. subst r0. split; [eexists _, _, _; eapply stats_error; exact Hh0|].
    intros es r s' HS. inversion HS as [? ? ? c a ? Hh|? ? ? ? e' ? Hh|? ? ? m' rest' c a ? Hh Ht'|? ? ? m' rest' c a s1' es1' ? ? Hh Ht' HS']; subst; destruct (handles_fun _ _ _ _ _ _ Hh0 Hh) as [Er Es]; congruence.
Qed.
(** Connected: whatever happened before, a program sees the backend's own answer. *)
Theorem C70_online : forall W s k h b names, hist W s k h -> backend_ok b -> connected b -> W + 2 * Z.of_nat (length names) + 3 < 2 ^ 63 ->
  names <> [] -> Forall good_name names ->
  (exists es r s', stats b s ROOT_INO names es r s') /\ forall es r s', stats b s ROOT_INO names es r s' -> r = direct b [] names.
Proof. intros W s k h b names H Hb Hc HW Hne Hg. eapply stats_online; try eassumption; [left; reflexivity|constructor]. Qed.
Print Assumptions C70_online.
Lemma direct_tree b names : tree_like b -> forall pre st, names <> [] -> b_lstat b 0 (spell (pre ++ names)) = Ok st -> direct b pre names = Ok (from_backend_stat st).
Proof.
  intros Ht. assert (Hdir : forall post pre n m st, b_lstat b 0 (spell ((pre ++ [n]) ++ m :: post)) = Ok st -> exists sd, b_lstat b 0 (spell (pre ++ [n])) = Ok sd /\ ftype (a_mode sd) = S_IFDIR).
  { induction post as [|z post IH] using rev_ind; intros pre n m st E; [eapply Ht; [|exact E]; destruct pre; discriminate|].
    replace ((pre ++ [n]) ++ m :: post ++ [z]) with (((pre ++ [n]) ++ m :: post) ++ [z]) in E by (rewrite <- !app_assoc; reflexivity). apply Ht in E as (sd & E & _); [|destruct pre; discriminate]. eapply IH; exact E. }
  induction names as [|n names IH]; intros pre st Hne E; [contradiction|]. cbn [direct]. destruct names as [|m rest]; [rewrite E; reflexivity|].
  replace (pre ++ n :: m :: rest) with ((pre ++ [n]) ++ m :: rest) in E by (rewrite <- app_assoc; reflexivity). destruct (Hdir _ _ _ _ _ E) as (sd & -> & ->). rewrite Z.eqb_refl. apply IH; [discriminate|exact E].
Qed.
Theorem C70_online_tree : forall W s k h b names st es r s', hist W s k h -> backend_ok b -> connected b -> tree_like b -> W + 2 * Z.of_nat (length names) + 3 < 2 ^ 63 ->
  names <> [] -> Forall good_name names -> b_lstat b 0 (spell names) = Ok st -> stats b s ROOT_INO names es r s' -> r = Ok (from_backend_stat st).
Proof.
  intros W s k h b names st es r s' H Hb Hc Ht HW Hne Hg El HS. destruct (C70_online _ _ _ _ _ _ H Hb Hc HW Hne Hg) as [_ Hall]. rewrite (Hall _ _ _ HS). apply direct_tree; [exact Ht|exact Hne|exact El].
Qed.
Print Assumptions C70_online_tree.

Lemma stats_offline b names : backend_ok b -> disconnected b -> forall W s k h p pre n, hist W s k h -> kdir k p -> twalk (s_db s) pre p S_IFDIR -> W + 2 * Z.of_nat (length (names ++ [n])) + 3 < 2 ^ 63 ->
  Forall good_name (names ++ [n]) -> (exists es r s', stats b s p (names ++ [n]) es r s') /\ forall es r s', stats b s p (names ++ [n]) es r s' ->
    s_db s' = s_db s /\ (forall a, r = Ok a <-> has_at (s_db s) (pre ++ names) n a) /\ match r with Ok _ => True | Err e => e = ENOENT \/ e = EIO \/ e = ENOTDIR end.
Proof.
  intros Hb Hc. induction names as [|m names IH]; intros W s k h p pre n H Hk Hw HW Hg; pose proof (hist_Inv _ _ _ _ H) as Hi; rewrite ?app_nil_r; cbn [app length] in *; inversion Hg as [|? ? Hgn Hgs]; subst.
  - assert (Hl : klegal k s (QLookup b p n)) by (split; assumption). assert (Hen : enough W s (QLookup b p n)) by (unfold enough; cbn [weight]; lia).
    destruct (lookup_replies _ _ _ _ _ _ _ _ H Hl Hen Hgn Hw) as (r0 & s0 & Hh0 & Hr0). rewrite Hc, Z.eqb_refl in Hr0. destruct Hr0 as [Hd0 Hr0].
    assert (Hholds : forall a, has_at (s_db s) pre n a <-> exists c, kn (s_db s) p n c a). { intros a. split; [intros (p2 & c & Hp2 & Hkn); exists c; destruct (twalk_fun _ _ _ _ _ _ Hi Hw Hp2) as [-> _]; exact Hkn|intros [c Hkn]; exists p, c; auto]. }
    destruct Hr0 as [(c & a & -> & Hkn)|[(e & -> & He) Hno]].
    + split; [eexists _, _, _; eapply stats_last; exact Hh0|]. intros es r s' HS. inversion HS as [? ? ? c1 a1 ? Hh|? ? ? ? e ? Hh| |]; subst; destruct (handles_fun _ _ _ _ _ _ Hh0 Hh) as [Er Es]; [|discriminate]. injection Er as <- <-. subst s'.
      split; [exact Hd0|]. split; [|exact I]. intros a1. rewrite Hholds. split; [intros [= <-]; eauto|]. intros [c1 Hk1]. destruct (kn_fun _ _ _ _ _ _ _ Hkn Hk1) as [_ ->]. reflexivity.
    + split; [eexists _, _, _; eapply stats_error; exact Hh0|]. intros es r s' HS. inversion HS as [? ? ? c1 a1 ? Hh|? ? ? ? e' ? Hh| |]; subst; destruct (handles_fun _ _ _ _ _ _ Hh0 Hh) as [Er Es]; [discriminate|]. injection Er as <-. subst s'.
      split; [exact Hd0|]. split; [|tauto]. intros a1. rewrite Hholds. split; [discriminate|]. intros [c1 Hk1]. destruct (Hno _ _ Hk1).
  - assert (Hl : klegal k s (QLookup b p m)) by (split; assumption). assert (Hen : enough W s (QLookup b p m)) by (unfold enough; cbn [weight]; lia).
    destruct (lookup_replies _ _ _ _ _ _ _ _ H Hl Hen Hgn Hw) as (r0 & s0 & Hh0 & Hr0). rewrite Hc, Z.eqb_refl in Hr0. destruct Hr0 as [Hd0 Hr0].
    destruct (names ++ [n]) as [|m2 rest] eqn:En; [destruct names; discriminate|].
    assert (Hpre : forall a, has_at (s_db s) (pre ++ m :: names) n a -> exists c am, kn (s_db s) p m c am /\ ftype (a_mode am) = S_IFDIR).
    { intros a (p2 & c2 & Hp2 & Hk2). replace (pre ++ m :: names) with ((pre ++ [m]) ++ names) in Hp2 by (rewrite <- app_assoc; reflexivity). destruct (twalk_prefix _ _ _ _ _ _ _ Hp2 Hk2) as (y & n' & c' & a' & Hy & _).
      apply twalk_inv in Hy as (q & am & Hq & Hkm & Htm). destruct (twalk_fun _ _ _ _ _ _ Hi Hw Hq) as [-> _]. eauto. }
    destruct Hr0 as [(c & a & -> & Hkn)|[(e & -> & He) Hno]].
    + pose proof (handles_hist _ _ _ _ _ _ _ H Hl Hen Hh0) as H1. cbn [weight] in H1. pose proof (lookup_twalk _ _ _ _ _ _ _ _ _ _ _ H Hl Hen Hw Hh0) as Hw1.
      destruct (Z.eq_dec (ftype (a_mode a)) S_IFDIR) as [Ht|Ht].
      * rewrite Ht in Hw1. destruct (IH _ _ _ _ _ (pre ++ [m]) n H1 (told_kdir W s k h b p m _ _ H Ht) Hw1 ltac:(rewrite ?En; cbn [length] in *; lia) ltac:(rewrite ?En; exact Hgs)) as [(es1 & r1 & s1 & HS1) Hall]. rewrite En in *. split; [eexists _, _, _; eapply stats_more; [exact Hh0|exact Ht|exact HS1]|].
        intros es r s' HS. inversion HS as [? ? ? c2 a2 ? Hh|? ? ? ? e ? Hh|? ? ? m' rest' c2 a2 ? Hh Ht'|? ? ? m' rest' c2 a2 s1' es1' ? ? Hh Ht' HS']; subst; destruct (handles_fun _ _ _ _ _ _ Hh0 Hh) as [Er Es]; [discriminate|injection Er as <- <-; contradiction|]. injection Er as <- <-. subst s1'.
        destruct (Hall _ _ _ HS') as (D1 & D2 & D3). split; [congruence|]. split; [|exact D3]. intros a'. rewrite D2, Hd0, <- app_assoc. reflexivity.
      * split; [eexists _, _, _; eapply stats_notdir; [exact Hh0|exact Ht]|]. intros es r s' HS. inversion HS as [? ? ? c2 a2 ? Hh|? ? ? ? e ? Hh|? ? ? m' rest' c2 a2 ? Hh Ht'|? ? ? m' rest' c2 a2 s1' es1' ? ? Hh Ht' HS']; subst; destruct (handles_fun _ _ _ _ _ _ Hh0 Hh) as [Er Es]; [discriminate| |injection Er as <- <-; contradiction]. subst s'.
        split; [exact Hd0|]. split; [|auto]. intros a'. split; [discriminate|]. intros Hho. destruct (Hpre _ Hho) as (c3 & am & Hk3 & Ht3). destruct (kn_fun _ _ _ _ _ _ _ Hkn Hk3) as [_ <-]. contradiction.
    + split; [eexists _, _, _; eapply stats_error; exact Hh0|]. intros es r s' HS. inversion HS as [? ? ? c2 a2 ? Hh|? ? ? ? e' ? Hh|? ? ? m' rest' c2 a2 ? Hh Ht'|? ? ? m' rest' c2 a2 s1' es1' ? ? Hh Ht' HS']; subst; destruct (handles_fun _ _ _ _ _ _ Hh0 Hh) as [Er Es]; try discriminate. injection Er as <-. subst s'.
      split; [exact Hd0|]. split; [|tauto]. intros a'. split; [discriminate|]. intros Hho. destruct (Hpre _ Hho) as (c3 & am & Hk3 & _). destruct (Hno _ _ Hk3).
Qed.
(** Disconnected: a program sees the last word of the backend about that path, or an error if
    there is none, or if it was taken back. *)
Theorem C70_offline : forall W s k h b names n o, hist W s k h -> backend_ok b -> disconnected b -> W + 2 * Z.of_nat (length (names ++ [n])) + 3 < 2 ^ 63 ->
  Forall good_name (names ++ [n]) -> believed h names n o ->
  (exists es r s', stats b s ROOT_INO (names ++ [n]) es r s') /\ forall es r s', stats b s ROOT_INO (names ++ [n]) es r s' ->
    match o with Some a => r = Ok a | None => r = Err ENOENT \/ r = Err EIO \/ r = Err ENOTDIR end.
Proof.
  intros W s k h b names n o H Hb Hc HW Hg Hbel. destruct (stats_offline b names Hb Hc W s k h ROOT_INO [] n H ltac:(left; reflexivity) ltac:(constructor) HW Hg) as [Hex Hall]. split; [exact Hex|]. intros es r s' HS. destruct (Hall _ _ _ HS) as (_ & Hr & He). cbn [app] in Hr.
  apply Forall_app in Hg as [Hg1 Hg2]. inversion Hg2; subst. assert (Hns : Forall noslash names) by (eapply Forall_impl; [exact Hg1|intros z Hz; apply Hz]).
  pose proof (believed_holds _ _ _ _ Hbel Hns ltac:(apply good_name_iff; assumption) _ _ _ H) as Hh. destruct o as [a|].
  - apply Hr, Hh. reflexivity.
  - destruct r as [a|e]; [|destruct He as [->|[->| ->]]; auto]. assert (Hx : None = Some a) by (apply Hh, Hr; reflexivity). discriminate.
Qed.
Print Assumptions C70_offline.
(** In particular: what a program saw connected it still sees disconnected, as long as no request
    in between heard anything else about the path. *)
Definition quiet (names : list bytes) (n : bytes) (e : event) : Prop :=
  word_of (ev_s e) (ev_q e) names n = Nothing /\ ~ denies_path (ev_s e) (ev_q e) names S_IFDIR.
Lemma stats_has b names : backend_ok b -> forall W s k h p pre n es a s', hist W s k h -> kdir k p -> twalk (s_db s) pre p S_IFDIR -> W + 2 * Z.of_nat (length (names ++ [n])) + 3 < 2 ^ 63 ->
  stats b s p (names ++ [n]) es (Ok a) s' -> has_at (s_db s') (pre ++ names) n a.
Proof.
  intros Hb. induction names as [|m names IH]; intros W s k h p pre n es a s' H Hk Hw HW HS; cbn [app length] in *.
  - assert (Hl : klegal k s (QLookup b p n)) by (split; assumption). assert (Hen : enough W s (QLookup b p n)) by (unfold enough; cbn [weight]; lia).
    inversion HS as [? ? ? c a1 ? Hh| | |]; subst. pose proof (handles_hist _ _ _ _ _ _ _ H Hl Hen Hh) as H1. rewrite app_nil_r. pose proof (lookup_twalk _ _ _ _ _ _ _ _ _ _ _ H Hl Hen Hw Hh) as Hw1. apply twalk_inv in Hw1 as (q & aq & Hq & Hkq & _).
    pose proof (lookup_announced _ _ _ _ _ _ _ _ _ _ H1) as Hka. destruct (kn_inj _ _ _ _ _ _ _ _ (hist_Inv _ _ _ _ H1) Hkq Hka) as [-> _]. exists p, c. auto.
  - destruct (names ++ [n]) as [|m2 rest] eqn:En; [destruct names; discriminate|]. assert (Hl : klegal k s (QLookup b p m)) by (split; assumption). assert (Hen : enough W s (QLookup b p m)) by (unfold enough; cbn [weight]; lia).
    inversion HS as [| | |? ? ? m' rest' c2 a2 s1' es1' ? ? Hh Ht' HS']; subst. pose proof (handles_hist _ _ _ _ _ _ _ H Hl Hen Hh) as H1. pose proof (lookup_twalk _ _ _ _ _ _ _ _ _ _ _ H Hl Hen Hw Hh) as Hw1. rewrite Ht' in Hw1. cbn [weight] in H1. rewrite <- En in HS'.
    replace (pre ++ m :: names) with ((pre ++ [m]) ++ names) by (rewrite <- app_assoc; reflexivity). refine (IH _ _ _ _ _ _ _ _ _ _ H1 (told_kdir W s k h b p m _ _ H Ht') Hw1 _ HS'). rewrite ?En. cbn [length] in *. lia.
Qed.
Theorem C70_same : forall W1 s1 k1 h1 b0 names n es a s2 h2 W s k b, hist W1 s1 k1 h1 -> backend_ok b0 -> W1 + 2 * Z.of_nat (length (names ++ [n])) + 3 < 2 ^ 63 -> Forall good_name (names ++ [n]) ->
  stats b0 s1 ROOT_INO (names ++ [n]) es (Ok a) s2 -> hist W s k ((h1 ++ es) ++ h2) -> Forall (quiet names n) h2 ->
  backend_ok b -> disconnected b -> W + 2 * Z.of_nat (length (names ++ [n])) + 3 < 2 ^ 63 ->
  (exists es' r s', stats b s ROOT_INO (names ++ [n]) es' r s') /\ forall es' r s', stats b s ROOT_INO (names ++ [n]) es' r s' -> r = Ok a.
Proof.
  intros W1 s1 k1 h1 b0 names n es a s2 h2 W s k b H1 Hb0 HW1 Hg HS H Hq Hb Hc HW.
  destruct (stats_hist b0 _ Hb0 _ _ _ _ ROOT_INO [] _ _ _ H1 ltac:(left; reflexivity) ltac:(constructor) HW1 HS) as (W2 & k2 & H2 & _).
  pose proof (stats_has b0 names Hb0 _ _ _ _ ROOT_INO [] n _ _ _ H1 ltac:(left; reflexivity) ltac:(constructor) HW1 HS) as Hhas. cbn [app] in Hhas.
  assert (Hns : Forall noslash names /\ valid_name n). { apply Forall_app in Hg as [Hg1 Hg2]. inversion Hg2; subst. split; [eapply Forall_impl; [exact Hg1|intros z Hz; apply Hz]|apply good_name_iff; assumption]. }
  destruct (believed_total (h1 ++ es) names n) as [o Ho]. assert (o = Some a) as -> by (apply (believed_holds _ _ _ _ Ho (proj1 Hns) (proj2 Hns) _ _ _ H2); exact Hhas).
  assert (Hbel : believed ((h1 ++ es) ++ h2) names n (Some a)).
  { clear H HW. induction h2 as [|e h2 IH] using rev_ind; [rewrite app_nil_r; exact Ho|]. apply Forall_app in Hq as [Hq1 Hq2]. inversion Hq2 as [|? ? [Hw Hd] _]; subst. rewrite app_assoc. pose proof (bel_word _ e _ _ _ (IH Hq1) Hd) as HB. rewrite Hw in HB. exact HB. }
  exact (C70_offline W s k _ b names n (Some a) H Hb Hc HW Hg Hbel).
Qed.
Print Assumptions C70_same.

(** ** Samples *)
(** the inodes a history announced by lookups *)
Definition known1 (l : list (Z * list bytes * Z)) (e : event) : list (Z * list bytes * Z) :=
  match ev_q e, ev_sent e with
  | QLookup _ p n, [REntry c a] => l ++ omap (fun x => if decide (x.1.1 = p /\ x.2 = S_IFDIR) then Some (c, x.1.2 ++ [n], ftype (a_mode a)) else None) l
  | _, _ => l
  end.
Definition known (h : list event) : list (Z * list bytes * Z) := fold_left known1 h [(ROOT_INO, [], S_IFDIR)].
Lemma known_ok h x names ty : (x, names, ty) ∈ known h -> known_as h x names ty.
Proof.
  unfold known. revert x names ty. induction h as [|e h IH] using rev_ind; intros x names ty Hin; [apply elem_of_list_singleton in Hin; injection Hin as -> -> ->; constructor|].
  rewrite fold_left_app in Hin. cbn [fold_left] in Hin. revert Hin. unfold known1 at 1. destruct e as [s q sent]. cbn [ev_q ev_sent].
  assert (Hold : forall z, z ∈ fold_left known1 h [(ROOT_INO, [], S_IFDIR)] -> z = (x, names, ty) -> known_as (h ++ [Ev s q sent]) x names ty) by (intros z Hz ->; apply ka_later, IH, Hz).
  destruct q; try (intros Hin; eapply Hold; [exact Hin|reflexivity]). destruct sent as [|[] [|? ?]]; try (intros Hin; eapply Hold; [exact Hin|reflexivity]).
  intros Hin. apply elem_of_app in Hin as [Hin|Hin]; [eapply Hold; [exact Hin|reflexivity]|]. apply elem_of_list_omap in Hin as ([[p0 names0] ty0] & Hin & E). cbn [fst snd] in E. destruct (decide _) as [[-> ->]|]; [|discriminate]. injection E as <- <- <-. apply ka_lookup, IH, Hin.
Qed.
(** no request of [h] denied the path *)
Definition denb (s : fstate) (q : request) (pre : list bytes) (n : bytes) (ty : Z) : bool :=
  match q with
  | QLookup b p n' => bool_decide (n' = n /\ asked s p = Some (spell pre)) &&
      match b_lstat b 0 (spell (pre ++ [n])) with Err e => negb (e =? ENOTCONN) | Ok st => negb (ftype (a_mode st) =? ty) end
  | QOpendir _ _ | QReadlink _ _ => true
  | _ => false
  end.
Lemma denb_ok s q pre n ty : denies s q pre n ty -> denb s q pre n ty = true.
Proof.
  destruct q; cbn [denies denb]; try tauto. intros (-> & Ha & Hd). rewrite bool_decide_eq_true_2 by auto. cbn [andb]. destruct Hd as [(e & -> & He)|(st & -> & Ht)]; apply negb_true_iff, Z.eqb_neq; assumption.
Qed.
Fixpoint denpathb (s : fstate) (q : request) (pre names : list bytes) (ty : Z) : bool :=
  match names with
  | [] => false
  | n :: rest => denb s q pre n (match rest with [] => ty | _ => S_IFDIR end) || denpathb s q (pre ++ [n]) rest ty
  end.
Lemma denpathb_ok s q names ty : denies_path s q names ty -> denpathb s q [] names ty = true.
Proof.
  intros (pre & n & post & -> & Hd). assert (Hgen : forall pre0, denies s q (pre0 ++ pre) n (match post with [] => ty | _ => S_IFDIR end) -> denpathb s q pre0 (pre ++ n :: post) ty = true); [|apply (Hgen []), Hd].
  clear Hd. induction pre as [|m pre IH]; intros pre0 Hd; cbn [app denpathb].
  - rewrite app_nil_r in Hd. rewrite (denb_ok _ _ _ _ _ Hd). reflexivity.
  - apply orb_true_iff. right. apply IH. rewrite <- app_assoc. exact Hd.
Qed.
Definition undenied (h : list event) (names : list bytes) (ty : Z) : bool := forallb (fun e => negb (denpathb (ev_s e) (ev_q e) [] names ty)) h.
Lemma undenied_ok h names ty : undenied h names ty = true -> forall e, e ∈ h -> ~ denies_path (ev_s e) (ev_q e) names ty.
Proof. unfold undenied. rewrite forallb_forall. intros H e He Hd. apply elem_of_list_In in He. specialize (H e He). rewrite (denpathb_ok _ _ _ _ Hd) in H. discriminate. Qed.
Definition qs70 : list request := [QLookup online 1 nD; QLookup online 2 nF; QLookup changed 2 nF; QLookup online 1 nF; QLookup offline 2 nF; QForget 3 3; QRestart rootA].
Definition h70 : list event := sH qs70.
Lemma sess70_hist : hist (sW qs70) (sS qs70) (sK qs70) h70.
Proof. apply sess_hist. qs_ok. Qed.
(** /d/f is known as 3, with the attributes of the second answer, over a restart; it was not
    denied; the file /f of the first session is denied by the last lookup. *)
Example C70_sample :
  known_as h70 2 [nD] S_IFDIR /\ known_as h70 3 [nD; nF] S_IFREG /\ (forall e, e ∈ h70 -> ~ denies_path (ev_s e) (ev_q e) [nD; nF] S_IFREG) /\
  (forall e, e ∈ h70 -> ~ denies_path (ev_s e) (ev_q e) [nD] S_IFDIR) /\ asked (sS qs70) 3 = Some pDF /\
  known_as h1 4 [nF] S_IFREG /\ asked s1 4 = None /\ (exists e, e ∈ h1 /\ denies_path (ev_s e) (ev_q e) [nF] S_IFREG).
Proof.
  split; [apply known_ok; apply (bool_decide_eq_true_1 _); vm_compute; reflexivity|]. split; [apply known_ok; apply (bool_decide_eq_true_1 _); vm_compute; reflexivity|]. split; [apply undenied_ok; vm_compute; reflexivity|]. split; [apply undenied_ok; vm_compute; reflexivity|]. split; [vm_compute; reflexivity|].
  split; [apply known_ok; apply (bool_decide_eq_true_1 _); vm_compute; reflexivity|]. assert (Ha : asked s1 4 = None) by (vm_compute; reflexivity). split; [exact Ha|].
  destruct (C70_lost W1 s1 k1 h1 4 [nF] S_IFREG sess1_hist ltac:(apply known_ok; apply (bool_decide_eq_true_1 _); vm_compute; reflexivity)) as [Hx|Hx]; [rewrite Ha in Hx; discriminate|exact Hx].
Qed.
Lemma online_connected : connected online.
Proof. intros i p. unfold online, finite, b_lstat. cbn [assoc]. repeat (destruct (decide _); [discriminate|]). discriminate. Qed.
(** connected, any path is resolved; the same path disconnected gives the last word *)
Example C70_sample2 : connected online /\ disconnected offline /\ backend_ok online /\ Forall good_name [nD; nF] /\
  sW qs70 + 2 * 2 + 3 < 2 ^ 63 /\ direct online [] [nD; nF] = Ok (fileA 20) /\ direct online [] [nF; nD] = Err ENOTDIR /\ direct online [] [nG] = Err ENOENT /\
  (forall o, believed h70 [nD] nF o -> o = Some (fileA 21)).
Proof.
  split; [exact online_connected|]. split; [intros i p; reflexivity|]. split; [exact online_ok|]. split; [repeat (apply Forall_cons; split; [split; [cbn; lia|unfold nD, nF; split; set_solver]|]); apply Forall_nil; exact I|].
  split; [vm_compute; reflexivity|]. split; [vm_compute; reflexivity|]. split; [vm_compute; reflexivity|]. split; [vm_compute; reflexivity|].
  intros o Ho. assert (Hv : valid_name nF) by (vm_compute; reflexivity). assert (Hn : Forall noslash [nD]) by (apply Forall_cons; split; [unfold noslash, nD; set_solver|apply Forall_nil; exact I]).
  apply (believed_holds _ _ _ _ Ho Hn Hv _ _ _ sess70_hist). exists 2, 3. split.
  - assert (Hk : known_as h70 2 [nD] S_IFDIR) by (apply known_ok; apply (bool_decide_eq_true_1 _); vm_compute; reflexivity). destruct (known_or_denied _ _ _ _ Hk _ _ _ sess70_hist) as [Hw|(e & He & Hd)]; [exact Hw|]. exfalso. revert e He Hd. apply undenied_ok. vm_compute. reflexivity.
  - apply knows_kn; [exact (hist_Inv _ _ _ _ sess70_hist)|unfold u64; lia|]. split; vm_compute; reflexivity.
Qed.
