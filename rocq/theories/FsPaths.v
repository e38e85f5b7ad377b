(** What is believed about a path. *)
From Verif Require Export FsWalk.

(** ** Specification *)
(** What a request told about the entry [n] of the directory at the path [pre]. *)
Inductive word := Nothing | IsGone | Is (a : attrs) | Length (z : Z).
Definition word_of (s : fstate) (q : request) (pre : list bytes) (n : bytes) : word :=
  match q with
  | QLookup b p n' =>
    if decide (n' = n /\ asked s p = Some (spell pre)) then
      match b_lstat b 0 (spell (pre ++ [n])) with
      | Ok st => Is (from_backend_stat st)
      | Err e => if e =? ENOTCONN then Nothing else IsGone
      end
    else Nothing
  | QOpendir b x =>
    if decide (asked s x = Some (spell pre)) then
      match b_opendir b (backend_path (spell pre)) with
      | Err _ => Nothing
      | Ok (names, _) => match last_stat b (backend_path (spell pre)) 0 names n None with Some a => Is a | None => IsGone end
      end
    else Nothing
  | QReadlink b c =>
    if decide (asked s c = Some (spell (pre ++ [n]))) then
      match b_readlink b (backend_path (spell (pre ++ [n]))) with
      | Ok link => Length (Z.of_nat (length link))
      | Err e => if e =? ENOTCONN then Nothing else IsGone
      end
    else Nothing
  | _ => Nothing
  end.
(** the length of a link is its size; it is kept for symbolic links *)
Definition hear (old : option attrs) (w : word) : option attrs :=
  match w with
  | Nothing => old
  | IsGone => None
  | Is a => Some a
  | Length z => match old with Some a => if ftype (a_mode a) =? S_IFLNK then Some (set_size z a) else Some a | None => None end
  end.
(** [believed h pre n o]: after [h], [o] is the last word about the entry [n] of the directory at
    [pre]; when the backend denies that there is a directory at [pre], or at a path that leads
    to it, all that was said about the entry before is void. *)
Inductive believed : list event -> list bytes -> bytes -> option attrs -> Prop :=
| bel_nil pre n : believed [] pre n None
| bel_void h e pre n : denies_path (ev_s e) (ev_q e) pre S_IFDIR -> believed (h ++ [e]) pre n None
| bel_word h e pre n o : believed h pre n o -> ~ denies_path (ev_s e) (ev_q e) pre S_IFDIR ->
    believed (h ++ [e]) pre n (hear o (word_of (ev_s e) (ev_q e) pre n)).

(** ** Spellings *)
Definition noslash (n : bytes) : Prop := 47 ∉ n.
Lemma valid_noslash n : valid_name n -> noslash n.
Proof. intros H. apply PropsFs.good_name_iff in H. apply H. Qed.
Lemma split_eq (a b r1 r2 : bytes) : 47 ∉ a -> 47 ∉ b -> (r1 = [] \/ exists t, r1 = 47 :: t) -> (r2 = [] \/ exists t, r2 = 47 :: t) -> a ++ r1 = b ++ r2 -> a = b /\ r1 = r2.
Proof.
  revert b. induction a as [|x a IH]; intros [|y b] Ha Hb H1 H2 E; cbn [app] in E; auto.
  - exfalso. destruct H1 as [->|[t ->]]; [discriminate|]. injection E as <- _. apply Hb. left.
  - exfalso. destruct H2 as [->|[t ->]]; [discriminate|]. injection E as -> _. apply Ha. left.
  - injection E as <- E. destruct (IH b) as [-> ->]; auto; intros Hin; [apply Ha|apply Hb]; right; exact Hin.
Qed.
Lemma spell_head c : spell c = [] \/ exists t, spell c = 47 :: t.
Proof. destruct c as [|n c]; [left; reflexivity|right; eexists; reflexivity]. Qed.
Lemma spell_inj c1 : forall c2, Forall noslash c1 -> Forall noslash c2 -> spell c1 = spell c2 -> c1 = c2.
Proof.
  induction c1 as [|n c1 IH]; intros [|m c2] H1 H2 E; try discriminate E; [reflexivity|]. inversion H1; inversion H2; subst. unfold spell in E. cbn [map concat app] in E. injection E as E.
  destruct (split_eq n m (spell c1) (spell c2)) as [-> E2]; auto using spell_head. f_equal. auto.
Qed.
Lemma walk_noslash d comps x y : Inv d -> u64 x -> walk d x comps y -> Forall noslash comps.
Proof.
  intros Hi. revert x. induction comps as [|n comps IH]; intros x Hu Hw; [constructor|]. destruct Hw as (z & Hl & Hw). apply lookup_treei in Hl as (e & He & <-); [|assumption..]. destruct (inv_treei _ Hi _ _ _ He) as (_ & _ & _ & _ & _ & Hn).
  constructor; [apply valid_noslash, (inv_treen _ Hi _ _ _ Hn)|]. eapply IH; [|exact Hw]. apply (treei_facts _ _ _ _ Hi He).
Qed.
Lemma u64_1 : u64 1.
Proof. unfold u64. lia. Qed.
Lemma asked_spell s x pre : Inv (s_db s) -> Forall noslash pre -> asked s x = Some (spell pre) -> walk (s_db s) 1 pre x.
Proof.
  intros Hi Hn Ha. destruct (asked_some _ _ _ Hi Ha) as (comps & Hw & E). replace pre with comps; [exact Hw|]. apply spell_inj; [eapply walk_noslash; [exact Hi|exact u64_1|exact Hw]|exact Hn|symmetry; exact E].
Qed.
(** a path that leads to a directory *)
Lemma walk_twalk d pre p : Inv d -> walk d 1 pre p -> is_dir d p -> twalk d pre p S_IFDIR.
Proof.
  intros Hi. revert p. induction pre as [|n pre IH] using rev_ind; intros p Hw Hd; [cbn [walk] in Hw; subst; constructor|].
  apply walk_app in Hw as (q & Hw & (z & Hl & Hz)). cbn [walk] in Hz. subst z. assert (Hq : u64 q) by (eapply walk_u64; [exact Hi|exact u64_1|exact Hw]).
  apply lookup_treei in Hl as (e & He & <-); [|assumption..]. destruct (inv_treei _ Hi _ _ _ He) as (E1 & _ & _ & Hqd & (i & Hpi & _) & Hn). destruct Hd as (i' & Hpi' & Ht). assert (i' = i) by congruence. subst i'. rewrite <- Ht.
  econstructor; [apply IH; [exact Hw|exact Hqd]|]. exists e, i. auto.
Qed.
Lemma twalk_names d names x ty : Inv d -> twalk d names x ty -> Forall noslash names.
Proof. intros Hi Hw. eapply walk_noslash; [exact Hi|exact u64_1|eapply twalk_walk; eassumption]. Qed.
Lemma twalk_fun d names x ty x' ty' : Inv d -> twalk d names x ty -> twalk d names x' ty' -> x = x' /\ ty = ty'.
Proof.
  intros Hi H. revert x' ty'. induction H as [|names p n c a Hp IH Hk]; intros x' ty' H'; inversion H' as [E|names2 p2 n2 c2 a2 Hp2 Hk2 E]; subst; auto.
  - destruct names2; discriminate.
  - destruct names; discriminate.
  - apply app_inj_tail in E as [-> ->]. destruct (IH _ _ Hp2) as [-> _]. destruct (kn_fun _ _ _ _ _ _ _ Hk Hk2) as [-> ->]. auto.
Qed.
Lemma twalk_dir d pre p : Inv d -> twalk d pre p S_IFDIR -> is_dir d p.
Proof.
  intros Hi H. inversion H as [E|names q n c a Hp Hk E E2 E3]; subst.
  - destruct (inv_root _ Hi) as (i & Hr & _ & Ht). exists i. auto.
  - destruct Hk as (e & i & _ & _ & Hx & <-). exists i. auto.
Qed.

(** ** The listing of a directory replaces entries of another type *)
Section replaced.
Context (d0 : db) (dir : Z) (m : bytes) (y ty : Z).
Hypothesis Hd0 : Inv d0.
Hypothesis Hy : d_inodes d0 !! y <> None.
Hypothesis Hm : valid_name m.
Definition not_it (d : db) : Prop := forall a, kn d dir m y a -> ftype (a_mode a) <> ty.
Lemma emplace_not_it t n' a' x1 t1 : TInv t -> is_dir (t_db t) dir -> room (t_db t) -> keeps_from d0 t -> emplace t dir n' a' = Done (x1, t1) ->
  (n' = m /\ ftype (a_mode a') <> ty) \/ not_it (t_db t) -> not_it (t_db t1).
Proof using Hd0 Hy Hm.
  intros HT Hdir Hroom [Hnx _] E Hor a Hk. destruct (decide (n' = m)) as [->|Hne].
  - destruct (emplace_spec t dir m a' HT Hdir Hroom) as [(err & Hcn & E')|[(_ & e' & i' & He' & Hi' & Hty' & E' & HT')|(_ & Hty' & kk & R & Hkk & Hfresh & Hd1 & HR & E' & HT')]].
    + unfold valid_name in Hm. congruence.
    + rewrite E' in E. injection E as <- <-. cbn [t_db] in Hk. destruct Hk as (e & i & H1 & H2 & H3 & H4). cbn [d_treen d_inodes set_inodes] in H1, H3. assert (e' = e) by congruence. subst e'. rewrite H2, lookup_insert in H3. injection H3 as <-. cbn [i_attr mkinode] in H4. subst a'.
      destruct Hor as [[_ Hor]|Hor]; [exact Hor|]. rewrite <- Hty'. apply Hor. exists e, i'. repeat split; try assumption. congruence.
    + destruct (emplace_kn_rev t dir m a' x1 t1 dir m y a HT Hdir Hroom E Hk) as [[? _]|(_ & _ & -> & _)]; [congruence|]. rewrite E' in E. injection E as -> _. exfalso.
      destruct (d_inodes d0 !! y) as [i|] eqn:Ey; [|contradiction]. destruct (has_below _ _ _ Hd0 Ey) as (k1 & Hk1 & Hlt). destruct Hnx as (k2 & k3 & E2 & E3 & Hle). rewrite E3 in Hkk. rewrite Hk1 in E2. injection E2 as ->. injection Hkk as ->. lia.
  - destruct Hor as [[? _]|Hor]; [contradiction|]. destruct (emplace_kn_rev t dir n' a' x1 t1 dir m y a HT Hdir Hroom E Hk) as [[_ H1]|(_ & ? & _)]; [exact (Hor _ H1)|congruence].
Qed.
Lemma sync_not_it W t0 b bp : forall (names : list bytes) i t mm W' t', session dir t mm -> way W t0 W' t -> W' + Z.of_nat (length names) + 3 < 2 ^ 64 -> sync_entries t b dir bp i names = Done t' -> keeps_from d0 t ->
  (exists j st, names !! j = Some m /\ b_lstat b (i + j) (join_path bp m) = Ok st /\ ftype (a_mode st) <> ty) \/ not_it (t_db t) -> not_it (t_db t').
Proof using Hd0 Hy Hm.
  induction names as [|n' names IH]; intros i t mm W' t' HS HWay HW E HA Hor; cbn [sync_entries] in E; [injection E as <-; destruct Hor as [(j & st & Hj & _)|Hor]; [discriminate|exact Hor]|].
  cbn [length] in HW. 
  assert (Hor' : (exists st, n' = m /\ b_lstat b i (join_path bp m) = Ok st /\ ftype (a_mode st) <> ty) \/ (exists j st, names !! j = Some m /\ b_lstat b (S i + j) (join_path bp m) = Ok st /\ ftype (a_mode st) <> ty) \/ not_it (t_db t)).
  { destruct Hor as [([|j] & st & Hj & Hl & Ht)|Hor]; [|right; left; exists j, st; split; [exact Hj|]; replace (S i + j)%nat with (i + S j)%nat by lia; auto|auto]. left. exists st. rewrite Nat.add_0_r in Hl. cbn in Hj. split; [congruence|auto]. }
  destruct (b_lstat b i (join_path bp n')) as [st|e] eqn:El.
  2:{ eapply IH; [exact HS|exact HWay|lia|exact E|exact HA|]. destruct Hor' as [(st & -> & Hl & _)|Hor']; [congruence|exact Hor']. }
  pose proof (s_dir _ _ _ (session_inv _ _ _ HS)) as Hdir. pose proof (way_room _ _ _ _ HWay ltac:(lia)) as Hroom.
  destruct (emplace t dir n' (from_backend_stat st)) as [[x1 t1]| | |] eqn:Ee; try discriminate. cbn [obind] in E.
  destruct (way_emplace _ _ _ _ _ _ _ _ _ HWay Hdir ltac:(lia) Ee) as [W1 R1].
  assert (HS1 : session dir t1 (match x1 with Ok c => <[n' := (c, from_backend_stat st)]> mm | Err _ => mm end)) by (destruct x1; [eapply ses_emplace|eapply ses_reject]; eassumption).
  eapply IH; [exact HS1|exact W1|lia|exact E|eapply keeps_emplace; [exact Hd0|exact (way_tinv _ _ _ _ HWay)|exact Hdir|exact Hroom|exact Ee|exact HA]|].
  destruct Hor' as [(st' & -> & Hl & Ht)|[Hor'|Hor']]; [right|left; exact Hor'|right]; (eapply emplace_not_it; [exact (way_tinv _ _ _ _ HWay)|exact Hdir|exact Hroom|exact HA|exact Ee|]).
  - left. split; [reflexivity|]. replace st with st' by congruence. exact Ht.
  - right. exact Hor'.
Qed.
End replaced.

(** ** One request *)
Lemma kn_dir d p n c a : Inv d -> kn d p n c a -> is_dir d p.
Proof. intros Hi Hk. destruct (kn_treei _ _ _ _ _ Hi Hk) as (e & i & He & _). apply (inv_treei _ Hi _ _ _ He). Qed.
Lemma entry_dir W s k h q s' o p n c a : hist W s k h -> klegal k s q -> enough W s q -> fstep s q = Done (s', o) -> Inv (s_db s') ->
  kn (s_db s') p n c a -> is_dir (s_db s) p.
Proof.
  intros Hh Hl Hen E Hi' Hk. destruct (hist_inv _ _ _ _ Hh) as (HF & HA & HW). pose proof (dr_inv _ _ _ (fi_dr _ _ _ HF)) as Hi.
  pose proof (news_step W s k q s' o p n HF HA Hl Hen E (kn_valid _ _ _ _ _ Hi' Hk) (kn_u64 _ _ _ _ _ Hi' Hk)) as [_ Hks].
  destruct (news s q p n) eqn:En.
  - eapply kn_dir; [exact Hi|]. apply Hks. exact Hk.
  - destruct (Hks _ _ Hk).
  - destruct q as [b p' n'|x m|fs|x|b x|b x|x size off|x|id x|id size off|tag|root]; cbn [news] in En; try discriminate.
    + destruct (decide _) as [[-> ->]|]; [|discriminate]. eapply kdir_is_dir; [exact HF|apply Hl].
    + destruct (lookup (s_db s) p n) as [c'|] eqn:El; [|discriminate]. apply lookup_treei in El as (e & He & _); [|exact Hi|exact (kn_u64 _ _ _ _ _ Hi' Hk)]. apply (inv_treei _ Hi _ _ _ He).
    + destruct (Z.eqb_spec x p) as [->|]; [|discriminate]. eapply kdir_is_dir; [exact HF|apply Hl].
Qed.
Lemma dir_below d p : Inv d -> is_dir d p -> below d p.
Proof. intros Hi (i & Hp & _). eapply has_below; eassumption. Qed.
(** a directory with entries was there before, and at the same path *)
Lemma dir_before W s k h q s' o pre p n c a : hist W s k h -> klegal k s q -> enough W s q -> fstep s q = Done (s', o) -> Inv (s_db s') ->
  twalk (s_db s') pre p S_IFDIR -> kn (s_db s') p n c a -> twalk (s_db s) pre p S_IFDIR.
Proof.
  intros Hh Hl Hen E Hi' Hw Hk. pose proof (hist_Inv _ _ _ _ Hh) as Hi. pose proof (entry_dir _ _ _ _ _ _ _ _ _ _ _ Hh Hl Hen E Hi' Hk) as Hd.
  apply walk_twalk; [exact Hi| |exact Hd]. destruct (step_pathkeeps _ _ _ _ _ _ _ Hh Hl Hen E Hi') as [_ Hp]. apply Hp; [apply dir_below; assumption|]. eapply twalk_walk; eassumption.
Qed.
Definition has_at (d : db) (pre : list bytes) (n : bytes) (a : attrs) : Prop := exists p c, twalk d pre p S_IFDIR /\ kn d p n c a.
Lemma twalk_inv d names n x ty : twalk d (names ++ [n]) x ty -> exists p a, twalk d names p S_IFDIR /\ kn d p n x a /\ ftype (a_mode a) = ty.
Proof.
  intros H. inversion H as [E|names2 p2 n2 c2 a2 Hp2 Hk2 E]; subst; [destruct names; discriminate|]. apply app_inj_tail in E as [-> ->]. exists p2, a2. auto.
Qed.
(** the first entry below [pre1] on the way *)
Lemma twalk_prefix d pre1 post p n c a : twalk d (pre1 ++ post) p S_IFDIR -> kn d p n c a -> exists y n' c' a', twalk d pre1 y S_IFDIR /\ kn d y n' c' a'.
Proof.
  revert p n c a. induction post as [|m post IH] using rev_ind; intros p n c a Hw Hk; [rewrite app_nil_r in Hw; exists p, n, c, a; auto|].
  rewrite app_assoc in Hw. apply twalk_inv in Hw as (q & a' & Hq & Hk' & _). eapply IH; eassumption.
Qed.
Lemma walk_det d comps : forall r x y, walk d r comps x -> walk d r comps y -> x = y.
Proof.
  induction comps as [|z l IH]; intros r x y Hx Hw; cbn [walk] in *; [congruence|]. destruct Hx as (u & A1 & A2), Hw as (v & B1 & B2). assert (u = v) by congruence. subst v. eapply IH; eassumption.
Qed.
Lemma denied_core W s k h q s' o pre1 m y : hist W s k h -> klegal k s q -> enough W s q -> fstep s q = Done (s', o) -> Inv (s_db s') -> Forall noslash pre1 -> noslash m ->
  twalk (s_db s) (pre1 ++ [m]) y S_IFDIR -> twalk (s_db s') (pre1 ++ [m]) y S_IFDIR -> ~ denies s q pre1 m S_IFDIR.
Proof.
  intros Hh Hl Hen E Hi' Hns1 Hsm Hy0 Hy Hd'. pose proof (hist_Inv _ _ _ _ Hh) as Hi. destruct (hist_inv _ _ _ _ Hh) as (HF & HA & HW).
  apply twalk_inv in Hy as (p1' & a1 & Hp1' & Hk1' & Ht1'). pose proof (dir_before _ _ _ _ _ _ _ _ _ _ _ _ Hh Hl Hen E Hi' Hp1' Hk1') as Hp1.
  pose proof Hy0 as Hy1. apply twalk_inv in Hy1 as (p1 & a0 & Hp1'' & Hk1 & Ht1). destruct (twalk_fun _ _ _ _ _ _ Hi Hp1 Hp1'') as [-> _]. clear Hp1''.
  pose proof (kn_valid _ _ _ _ _ Hi Hk1) as Hv. pose proof (kn_u64 _ _ _ _ _ Hi Hk1) as Hu. pose proof (news_step W s k q s' o p1 m HF HA Hl Hen E Hv Hu) as [_ Hks].
  pose proof (asked_walk _ _ _ Hi (twalk_walk _ _ _ _ Hi Hp1)) as Hask.
  assert (Hsame : forall x, asked s x = Some (spell pre1) -> x = p1). { intros x Hx. apply asked_spell in Hx; [|assumption..]. eapply walk_det; [exact Hx|]. eapply twalk_walk; eassumption. }
  destruct q as [b p' n2|x z|fs|x|b x|b x|x size off|x|id x|id size off|tag|root]; cbn [denies] in Hd'; try contradiction.
  - destruct Hd' as (-> & Hp' & Hd'). apply Hsame in Hp'. subst p'. cbn [news] in Hks. rewrite decide_True in Hks by auto. rewrite Hask, <- spell_snoc in Hks. destruct Hd' as [(e & He & Hne)|(st & Hst & Hty)].
    + rewrite He in Hks. destruct (Z.eqb_spec e ENOTCONN); [contradiction|]. destruct (Hks _ _ Hk1').
    + rewrite Hst in Hks. destruct Hks as [c2 Hk2]. destruct (kn_fun _ _ _ _ _ _ _ Hk1' Hk2) as [_ ->]. apply Hty. exact Ht1'.
  - destruct Hd' as (Hx & e & He & Hne). assert (Hns : Forall noslash (pre1 ++ [m])) by (apply Forall_app; auto). pose proof (asked_spell _ _ _ Hi Hns Hx) as Hwx. pose proof (walk_det _ _ _ _ _ Hwx (twalk_walk _ _ _ _ Hi Hy0)) as ->.
    cbn [news] in Hks. destruct (proj2 (knows_kn _ _ _ _ _ Hi Hu) Hk1) as [Hlk _]. rewrite Hlk, Z.eqb_refl, Hx, He in Hks. destruct (Z.eqb_spec e ENOTCONN); [contradiction|]. destruct (Hks _ _ Hk1').
  - destruct Hd' as (Hx & names & e0 & Ho & Hd'). apply Hsame in Hx. subst x. destruct Hd' as [Hnone|(j & st & Hj & Hst & Hty)].
    + cbn [news] in Hks. rewrite Z.eqb_refl, Hask, Ho in Hks. destruct (last_stat b (backend_path (spell pre1)) 0 names m None) as [a2|] eqn:Els; [|destruct (Hks _ _ Hk1')].
      apply listed_iff in Els as (i & st & Hi1 & Hi2 & _). destruct (Hnone i Hi1) as [e He]. congruence.
    + clear Hks. destruct Hl as [Hkd Hb]. unfold enough in Hen. assert (H63 : 2 ^ 63 < 2 ^ 64) by lia. destruct (h_opendir_total W s k b p1 HF Hkd ltac:(lia)) as (s2 & l & E2 & Hc & _). cbn [fstep] in E. rewrite E2 in E. injection E as <- _.
      destruct Hc as [Hw|comps e Hw Eo' He|comps Hw Eo'|comps names' e0' t1 t2 mm t3 r t4 Hw Eo' E1 HSW E3 HS2 Hm Hm' E4 E5].
      1:{ rewrite asked_none in Hask by assumption. discriminate. }
      all: rewrite (asked_walk _ _ _ Hi Hw) in Hask; injection Hask as Hask; rewrite Hask in *; rewrite Eo' in Ho; try discriminate.
      injection Ho as -> ->. destruct HSW as (W1 & t0 & W2 & HS1 & HW1 & HWl).
      assert (Hd1 : t_db t1 = s_db s). { unfold start_dir_rewrite in E1. cbn in E1. destruct (from_key _ _ _); injection E1; intros; subst; reflexivity. }
      cbn [s_db after set_dbr] in Hk1'. assert (HT3 : TInv t3) by (apply (s_inv _ _ _ (session_inv p1 t3 mm ltac:(eapply ses_flags; eassumption)))). pose proof (finish_sub _ _ _ _ _ _ _ HT3 E5 Hk1') as Hk3. apply (update_flags_kn _ _ _ _ _ _ _ _ _ _ E4) in Hk3.
      assert (Hyd : d_inodes (s_db s) !! y <> None) by (destruct Hk1 as (? & ? & _ & _ & Hx & _); congruence).
      refine (sync_not_it (s_db s) p1 m y S_IFDIR Hi Hyd Hv W1 t0 b _ names 0 t1 _ _ t2 HS1 HW1 HWl E3 _ _ a1 Hk3 Ht1').
      * split; rewrite Hd1; [apply next_le_refl; exact Hi|apply keeps_refl].
      * left. exists j, st. auto.
Qed.
Lemma denied_gone W s k h q s' o pre n a : hist W s k h -> klegal k s q -> enough W s q -> fstep s q = Done (s', o) -> Inv (s_db s') -> Forall noslash pre ->
  denies_path s q pre S_IFDIR -> ~ has_at (s_db s') pre n a.
Proof.
  intros Hh Hl Hen E Hi' Hns (pre1 & m & post & -> & Hd) (p & c & Hw & Hk). pose proof (hist_Inv _ _ _ _ Hh) as Hi. destruct (hist_inv _ _ _ _ Hh) as (HF & HA & HW).
  replace (pre1 ++ m :: post) with ((pre1 ++ [m]) ++ post) in Hw by (rewrite <- app_assoc; reflexivity). destruct (twalk_prefix _ _ _ _ _ _ _ Hw Hk) as (y & n' & c' & a' & Hy & Hky).
  assert (Hd' : denies s q pre1 m S_IFDIR) by (destruct post; exact Hd). clear Hd Hw Hk. apply Forall_app in Hns as [Hns1 Hns2]. inversion Hns2 as [|? ? Hsm _]; subst.
  pose proof (dir_before _ _ _ _ _ _ _ _ _ _ _ _ Hh Hl Hen E Hi' Hy Hky) as Hy0. exact (denied_core _ _ _ _ _ _ _ _ _ _ Hh Hl Hen E Hi' Hns1 Hsm Hy0 Hy Hd').
Qed.

Lemma twalk_dec d pre : Inv d -> (exists p, twalk d pre p S_IFDIR) \/ ~ exists p, twalk d pre p S_IFDIR.
Proof.
  intros Hi. induction pre as [|n pre IH] using rev_ind; [left; eexists; constructor|]. destruct IH as [[p Hp]|Hno]; [|right; intros [x Hx]; apply twalk_inv in Hx as (q & a & Hq & _); eauto].
  destruct (d_treen d !! (p, n)) as [e|] eqn:He; [|right; intros [x Hx]; apply twalk_inv in Hx as (q & a & Hq & (e & i & He' & _) & _); destruct (twalk_fun _ _ _ _ _ _ Hi Hp Hq) as [-> _]; congruence].
  destruct (inv_treen _ Hi _ _ _ He) as (_ & _ & Hti). destruct (inv_treei _ Hi _ _ _ Hti) as (_ & _ & _ & _ & (i & Hx & _) & _).
  destruct (Z.eq_dec (ftype (a_mode (i_attr i))) S_IFDIR) as [Ht|Ht].
  - left. exists (de_ino e). rewrite <- Ht. econstructor; [exact Hp|]. exists e, i. auto.
  - right. intros [x Hy]. apply twalk_inv in Hy as (q & a & Hq & (e' & i' & He' & H1 & H2 & H3) & H4). destruct (twalk_fun _ _ _ _ _ _ Hi Hp Hq) as [-> _]. assert (e' = e) by congruence. subst e'. subst x. assert (i' = i) by congruence. subst. contradiction.
Qed.
Lemma same_place s pre p x : Inv (s_db s) -> Forall noslash pre -> twalk (s_db s) pre p S_IFDIR -> asked s x = Some (spell pre) <-> x = p.
Proof.
  intros Hi Hn Hw. pose proof (twalk_walk _ _ _ _ Hi Hw) as Hp. split; [|intros ->; apply asked_walk; assumption]. intros Hx. apply asked_spell in Hx; [|assumption..]. eapply walk_det; eassumption.
Qed.
(** the news about the directory are the words about its path *)
Lemma word_news s q pre p n old : Inv (s_db s) -> Forall noslash pre -> noslash n -> twalk (s_db s) pre p S_IFDIR -> (forall a, (exists c, kn (s_db s) p n c a) <-> old = Some a) ->
  learn old (news s q p n) = hear old (word_of s q pre n).
Proof.
  intros Hi Hn Hnn Hw Hold. pose proof (twalk_walk _ _ _ _ Hi Hw) as Hp. pose proof (asked_walk _ _ _ Hi Hp) as Hask. assert (Hu : u64 p) by (eapply walk_u64; [exact Hi|exact u64_1|exact Hp]).
  destruct q as [b p' n2|x z|fs|x|b x|b x|x size off|x|id x|id size off|tag|root]; cbn [news word_of]; try reflexivity.
  - destruct (decide (p' = p /\ n2 = n)) as [[-> ->]|Hne].
    + rewrite decide_True by auto. rewrite Hask, spell_snoc. destruct (b_lstat b 0 _); [reflexivity|]. destruct (_ =? _); reflexivity.
    + rewrite decide_False; [reflexivity|]. intros [-> Hx]. apply Hne. split; [|reflexivity]. eapply same_place; eassumption.
  - assert (Hiff : asked s x = Some (spell (pre ++ [n])) <-> lookup (s_db s) p n = Ok x).
    { split.
      - intros Hx. apply asked_spell in Hx; [|assumption|apply Forall_app; auto]. apply walk_app in Hx as (p2 & Hx & (z & Hl & Hz)). cbn [walk] in Hz. subst z. rewrite (walk_det _ _ _ _ _ Hp Hx). exact Hl.
      - intros Hl. apply asked_walk; [exact Hi|]. apply walk_app. exists p. split; [exact Hp|]. cbn [walk]. eauto. }
    destruct (lookup (s_db s) p n) as [c|e] eqn:El.
    2:{ rewrite decide_False; [reflexivity|]. intros Hx. apply Hiff in Hx. discriminate. }
    destruct (Z.eqb_spec c x) as [->|Hne].
    2:{ rewrite decide_False; [reflexivity|]. intros Hx. apply Hiff in Hx. congruence. }
    rewrite decide_True by (apply Hiff; reflexivity). rewrite (proj2 Hiff eq_refl). destruct (b_readlink b _) as [link|e]; [|destruct (e =? ENOTCONN); reflexivity].
    apply lookup_treei in El as (e & He & Hen); [|assumption..]. destruct (inv_treei _ Hi _ _ _ He) as (H1 & _ & _ & _ & (i & H2 & _) & H3). subst n. assert (Hk : kn (s_db s) p (de_name e) x (i_attr i)) by (exists e, i; auto).
    assert (Ho : old = Some (i_attr i)) by (apply Hold; eauto). rewrite Ho. unfold getattr. rewrite H2. cbn [hear learn]. destruct (_ =? _); reflexivity.
  - destruct (Z.eqb_spec x p) as [->|Hne].
    + rewrite decide_True by exact Hask. rewrite Hask. destruct (b_opendir b _) as [[names e0]|]; [|reflexivity]. destruct (last_stat _ _ _ _ _ _); reflexivity.
    + rewrite decide_False; [reflexivity|]. intros Hx. apply Hne. eapply same_place; eassumption.
Qed.
(** where there is no directory, nothing is heard *)
Lemma word_nowhere W s k h q pre n : hist W s k h -> klegal k s q -> Forall noslash pre -> noslash n -> (~ exists p, twalk (s_db s) pre p S_IFDIR) -> hear None (word_of s q pre n) = None.
Proof.
  intros Hh Hl Hn Hnn Hno. pose proof (hist_Inv _ _ _ _ Hh) as Hi. destruct (hist_inv _ _ _ _ Hh) as (HF & _).
  destruct q as [b p' n2|x z|fs|x|b x|b x|x size off|x|id x|id size off|tag|root]; cbn [word_of]; try reflexivity.
  - rewrite decide_False; [reflexivity|]. intros [_ Hx]. apply Hno. exists p'. apply walk_twalk; [exact Hi|eapply asked_spell; eassumption|eapply kdir_is_dir; [exact HF|apply Hl]].
  - rewrite decide_False; [reflexivity|]. intros Hx. apply Hno. apply asked_spell in Hx; [|assumption|apply Forall_app; auto]. apply walk_app in Hx as (p2 & Hx & (z & Hlk & _)). exists p2. apply walk_twalk; [exact Hi|exact Hx|].
    apply lookup_treei in Hlk as (e & He & _); [|exact Hi|eapply walk_u64; [exact Hi|exact u64_1|exact Hx]]. apply (inv_treei _ Hi _ _ _ He).
  - rewrite decide_False; [reflexivity|]. intros Hx. apply Hno. exists x. apply walk_twalk; [exact Hi|eapply asked_spell; eassumption|eapply kdir_is_dir; [exact HF|apply Hl]].
Qed.
Lemma holds_step W s k h q s' o pre n old : hist W s k h -> klegal k s q -> enough W s q -> fstep s q = Done (s', o) -> Inv (s_db s') -> Forall noslash pre -> valid_name n ->
  ~ denies_path s q pre S_IFDIR -> (forall a, has_at (s_db s) pre n a <-> old = Some a) -> forall a, has_at (s_db s') pre n a <-> hear old (word_of s q pre n) = Some a.
Proof.
  intros Hh Hl Hen E Hi' Hn Hv Hnd Hold a. pose proof (hist_Inv _ _ _ _ Hh) as Hi. destruct (hist_inv _ _ _ _ Hh) as (HF & HA & HW). pose proof (valid_noslash _ Hv) as Hnn.
  destruct (twalk_dec (s_db s) pre Hi) as [[p Hp]|Hno].
  - assert (Hold' : forall a, (exists c, kn (s_db s) p n c a) <-> old = Some a).
    { intros a'. rewrite <- Hold. split; [intros [c Hk]; exists p, c; auto|intros (p2 & c & Hp2 & Hk); exists c]. destruct (twalk_fun _ _ _ _ _ _ Hi Hp Hp2) as [-> _]. exact Hk. }
    rewrite <- (word_news s q pre p n old Hi Hn Hnn Hp Hold'). destruct (twalk_step _ _ _ _ _ _ _ _ _ _ Hh Hl Hen E Hi' Hp) as [Hp'|]; [|contradiction].
    assert (Hex : has_at (s_db s') pre n a <-> exists c, kn (s_db s') p n c a).
    { split; [intros (p2 & c & Hp2 & Hk); exists c|intros [c Hk]; exists p, c; auto]. destruct (twalk_fun _ _ _ _ _ _ Hi' Hp' Hp2) as [-> _]. exact Hk. }
    rewrite Hex. assert (Hu : u64 p) by (eapply walk_u64; [exact Hi|exact u64_1|eapply twalk_walk; eassumption]).
    pose proof (news_step W s k q s' o p n HF HA Hl Hen E Hv Hu) as [_ Hks]. pose proof (twalk_here _ _ _ _ Hi' Hp') as Hnl. destruct (news s q p n) as [| |a1]; cbn [learn].
    + rewrite <- Hold'. destruct Hks as [K1 K2]. split; intros [c Hk]; exists c; [apply K2, Hk|]. destruct (K1 c a (or_introl Hk)) as [?|[? _]]; [assumption|contradiction].
    + split; [intros [c Hk]; destruct (Hks _ _ Hk)|discriminate].
    + destruct Hks as [c1 Hk1]. split; [intros [c Hk]; destruct (kn_fun _ _ _ _ _ _ _ Hk Hk1) as [_ ->]; reflexivity|intros [= <-]; eauto].
  - assert (old = None) as ->. { destruct old as [a'|]; [|reflexivity]. destruct (proj2 (Hold a') eq_refl) as (p & c & Hp & _). destruct Hno. eauto. }
    rewrite (word_nowhere W s k h q pre n Hh Hl Hn Hnn Hno). split; [|discriminate]. intros (p & c & Hp & Hk). destruct Hno. exists p. eapply dir_before; eassumption.
Qed.

(** ** Histories *)
Lemma open_holds root d r pre n a : open_cache root db_empty = Done (d, r) -> ~ has_at d pre n a.
Proof.
  intros Eo (p & c & _ & Hk). destruct (open_cache_spec root db_empty (init_db_inv root)) as (R & HR & E' & _). rewrite E' in Eo. injection Eo as <- <-. apply cleaned_kn_rev in Hk. destruct Hk as (e & i & He & _). vm_compute in He. discriminate.
Qed.
Lemma believed_holds h pre n o : believed h pre n o -> Forall noslash pre -> valid_name n -> forall W s k, hist W s k h -> forall a, has_at (s_db s) pre n a <-> o = Some a.
Proof.
  induction 1 as [pre n|h e pre n Hd|h e pre n o Hb IH Hnd]; intros Hn Hv W s k H a.
  - inversion H as [root d r Ha Eo|? ? ? h0 q ? ? ? ? ? ? ? ? E0]; subst; [|destruct h0; discriminate]. split; [|discriminate]. intros Hh. destruct (open_holds _ _ _ _ _ _ Eo Hh).
  - pose proof (hist_Inv _ _ _ _ H) as Hi'. apply hist_last in H as (W0 & k0' & s' & o & sent & H0 & Hl & Hen & E & Es & _ & _ & -> & _). split; [|discriminate]. intros Hh. destruct (denied_gone _ _ _ _ _ _ _ _ _ _ H0 Hl Hen E Hi' Hn Hd Hh).
  - pose proof (hist_Inv _ _ _ _ H) as Hi'. apply hist_last in H as (W0 & k0' & s' & o' & sent & H0 & Hl & Hen & E & Es & _ & _ & -> & _). eapply holds_step; try eassumption. intros a'. eapply IH; eassumption.
Qed.
(** ** [believed] is a function *)
Lemma denies_or s q pre n ty : denies s q pre n ty \/ ~ denies s q pre n ty.
Proof.
  destruct q as [b p' n2|x z|fs|x|b x|b x|x size off|x|id x|id size off|tag|root]; cbn [denies]; try (right; tauto).
  - destruct (decide (n2 = n)) as [->|Hne]; [|right; tauto]. destruct (decide (asked s p' = Some (spell pre))) as [Ha|Ha]; [|right; tauto].
    destruct (b_lstat b 0 _) as [st|e] eqn:El.
    + destruct (Z.eq_dec (ftype (a_mode st)) ty) as [Ht|Ht]; [right|left; split; [reflexivity|]; split; [exact Ha|]; right; eauto]. intros (_ & _ & [(e & He & _)|(st' & Hs & Hne)]); congruence.
    + destruct (Z.eq_dec e ENOTCONN) as [->|Hne]; [right|left; split; [reflexivity|]; split; [exact Ha|]; left; eauto]. intros (_ & _ & [(e & He & ?)|(st' & Hs & Hne)]); congruence.
  - destruct (decide (asked s x = Some (spell (pre ++ [n])))) as [Ha|Ha]; [|right; tauto]. destruct (b_readlink b _) as [l|e] eqn:El; [right; intros (_ & e & He & _); congruence|].
    destruct (Z.eq_dec e ENOTCONN) as [->|Hne]; [right; intros (_ & e & He & ?); congruence|left; eauto].
  - destruct (decide (asked s x = Some (spell pre))) as [Ha|Ha]; [|right; tauto]. destruct (b_opendir b _) as [[names e0]|e] eqn:Eo; [|right; intros (_ & ? & ? & ? & _); congruence].
    destruct (stat_types b (backend_path (spell pre)) n ty names 0) as [Hall|Hbad]; [|left; split; [exact Ha|]; exists names, e0; split; [reflexivity|right; exact Hbad]].
    destruct (last_stat b (backend_path (spell pre)) 0 names n None) as [a|] eqn:Els.
    + right. intros (_ & names' & e' & He & [Hnone|(i & st & H1 & H2 & H3)]); injection He as <- <-; [|apply H3, (Hall i st H1 H2)]. apply listed_iff in Els as (i & st & Hi1 & Hi2 & _). destruct (Hnone i Hi1). congruence.
    + left. split; [exact Ha|]. exists names, e0. split; [reflexivity|]. left. intros i Hin. destruct (b_lstat b i _) as [st|e] eqn:Est; [exfalso|eauto]. destruct (last_stat_some b (backend_path (spell pre)) n names 0 None i st Hin Est). congruence.
Qed.
Lemma denies_path_or s q pre ty : denies_path s q pre ty \/ ~ denies_path s q pre ty.
Proof.
  revert ty. induction pre as [|n pre IH] using rev_ind; intros ty; [right; intros (pre & m & post & E & _); destruct pre; discriminate|].
  destruct (denies_or s q pre n ty) as [Hd|Hd]; [left; exists pre, n, []; auto|]. destruct (IH S_IFDIR) as [Hd2|Hd2]; [left; apply denies_more, Hd2|]. right. intros (p1 & m & post & E & H).
  destruct post as [|z post _] using rev_ind; [apply app_inj_tail in E as [<- <-]; contradiction|]. replace (p1 ++ m :: post ++ [z]) with ((p1 ++ m :: post) ++ [z]) in E by (rewrite <- app_assoc; reflexivity). apply app_inj_tail in E as [-> ->].
  apply Hd2. exists p1, m, post. split; [reflexivity|]. destruct post; exact H.
Qed.
Lemma believed_total h pre n : exists o, believed h pre n o.
Proof.
  induction h as [|e h [o IH]] using rev_ind; [eexists; constructor|]. destruct (denies_path_or (ev_s e) (ev_q e) pre S_IFDIR) as [Hd|Hd]; eexists; [eapply bel_void|eapply bel_word]; eassumption.
Qed.
Lemma believed_fun h pre n o o' : believed h pre n o -> believed h pre n o' -> o = o'.
Proof.
  intros H. revert o'. induction H as [pre n|h e pre n Hd|h e pre n o Hb IH Hnd]; intros o' H'; inversion H' as [? ? E|h' e' ? ? Hd' E|h' e' ? ? o2 Hb' Hnd' E]; subst; try reflexivity; try (destruct h; discriminate); try (destruct h'; discriminate);
    apply app_inj_tail in E as [-> ->]; try contradiction; try reflexivity. rewrite (IH _ Hb'). reflexivity.
Qed.
