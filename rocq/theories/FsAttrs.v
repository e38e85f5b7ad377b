(** Attributes stay in the ranges of their machine types. *)
From Verif Require Export FsCases.

Definition DA (d : db) : Prop := forall x i, d_inodes d !! x = Some i -> attrs_ok (i_attr i).
Definition op_attrs (o : op) : Prop :=
  match o with OEmplace _ _ a => attrs_ok a | OWritelink _ b => Z.of_nat (length b) < 2 ^ 64 | _ => True end.
Lemma DA_cleaned R d : DA d -> DA (cleaned R d).
Proof. intros H x i Hi. apply cleaned_inodes in Hi as (_ & j & Hj & ->). unfold unpar_set. destruct (decide _); cbn; eapply H; eassumption. Qed.
Lemma DA_insert d x j : DA d -> attrs_ok (i_attr j) -> DA (set_inodes (<[x := j]> (d_inodes d)) d).
Proof. intros H Hj y i Hi. cbn in Hi. destruct (decide (x = y)) as [->|Hne]; [rewrite lookup_insert in Hi; congruence|]. rewrite lookup_insert_ne in Hi by assumption. eapply H; eassumption. Qed.
Lemma DA_tables d d' : d_inodes d' = d_inodes d -> DA d -> DA d'.
Proof. intros E H x i Hi. rewrite E in Hi. eapply H; eassumption. Qed.
Lemma DA_make_orphan d c : DA d -> DA (make_orphan d c).2.
Proof.
  intros H. unfold make_orphan. destruct (parent_of d c) as [p|]; [|exact H]. destruct (p =? INVALID_INO); [exact H|].
  destruct (d_treei d !! (p, c)) as [e|]; [|exact H]. cbn [snd d_inodes set_orphans set_treen set_treei]. destruct (d_inodes d !! c) as [i|] eqn:Ei; [|exact H].
  intros y j Hj. cbn in Hj. destruct (decide (c = y)) as [->|Hne]; [rewrite lookup_insert in Hj; injection Hj as <-; eapply (H y i Ei)|]. rewrite lookup_insert_ne in Hj by assumption. eapply H; eassumption.
Qed.
Lemma DA_fold l : forall d, DA d -> DA (fold_left (fun d ino => (make_orphan d ino).2) l d).
Proof. induction l as [|c l IH]; intros d H; [exact H|]. cbn [fold_left]. apply IH, DA_make_orphan, H. Qed.
Lemma DA_detach1 p c n i d : d_inodes d !! c = Some i -> DA d -> DA (detach1 p c n i d).
Proof. intros Hi H. intros y j Hj. cbn in Hj. destruct (decide (c = y)) as [->|Hne]; [rewrite lookup_insert in Hj; injection Hj as <-; apply (H y i Hi)|]. rewrite lookup_insert_ne in Hj by assumption. eapply H; eassumption. Qed.
Lemma step_attrs t o res t' : TInv t -> legal t o -> op_attrs o -> step t o = Done (res, t') -> DA (t_db t) -> DA (t_db t').
Proof.
  intros HT Hleg Ho E H.
  assert (Hul : forall c res t', unlink_ino t c = Done (res, t') -> DA (t_db t')).
  { clear E. intros c r1 t1 E. destruct (unlink_ino_spec t c HT) as [(_ & E')|[(_ & E')|(d1 & Hd1 & Hi1 & R & HR & E' & HT')]]; rewrite E' in E; injection E as _ <-; [exact H..|].
    cbn [t_db]. apply DA_cleaned. destruct Hd1 as [[_ ->]|(p & e & i & He & Hi & ->)]; [exact H|]. apply DA_detach1; assumption. }
  destruct o as [p n a|c|p c|p n| |y b|y s c|y| |y|y k]; cbn [step] in E; cbn [op_attrs] in Ho.
  - destruct Hleg as [Hdir Hroom]. unfold drop_val in E. destruct (emplace t p n a) as [[r1 t1]| | |] eqn:Ee; try discriminate. cbn in E. injection E as <- <-.
    destruct (emplace_spec t p n a HT Hdir Hroom) as [(err & _ & E')|[(Hv & e & oi & He & Hoi & Hty & E' & HT2)|(Hv & Hty & k & R & Hk & Hfresh & Hd1 & HR & E' & HT2)]];
      rewrite E' in Ee; injection Ee as <- <-; cbn [t_db]; [exact H|apply DA_insert; assumption|].
    apply DA_cleaned. intros x i Hi. cbn in Hi. destruct (decide (k = x)) as [->|Hne]; [rewrite lookup_insert in Hi; injection Hi as <-; exact Ho|]. rewrite lookup_insert_ne in Hi by assumption.
    revert x i Hne Hi. assert (Hd : DA (detached_name (t_db t) p n)); [|intros; eapply Hd; eassumption].
    unfold detached_name. destruct (d_treen (t_db t) !! (p, n)) as [e|]; [|exact H]. destruct (d_inodes (t_db t) !! de_ino e) eqn:Ei; [|exact H]. apply DA_detach1; assumption.
  - eapply Hul; eassumption.
  - eapply Hul; eassumption.
  - unfold unlink_name in E. destruct (d_treen (t_db t) !! (p, n)); [eapply Hul; eassumption|]. injection E as _ <-. exact H.
  - destruct (tx_clean_spec t HT) as (R & HR & E' & _). rewrite E' in E. cbn in E. injection E as _ <-. cbn [t_db]. apply DA_cleaned, H.
  - unfold writelink in E. destruct (d_inodes (t_db t) !! y) as [i|] eqn:Ei; [|injection E as _ <-; exact H].
    destruct (negb _); injection E as _ <-; [exact H|]. cbn [t_db with_db]. eapply DA_tables; [|apply (DA_insert (t_db t) y (Inode (i_flags i) (i_parent i) (set_size (Z.of_nat (length b)) (i_attr i))) H)]; [reflexivity|].
    cbn [i_attr]. pose proof (H y i Ei) as Ha. unfold attrs_ok, set_size, u64 in *. cbn. intuition lia.
  - unfold update_flags in E. destruct (d_inodes (t_db t) !! y) as [i|] eqn:Ei; injection E as _ <-; [|exact H]. cbn [t_db with_db]. apply DA_insert; [exact H|]. exact (H y i Ei).
  - unfold start_dir_rewrite in E. destruct (t_rw t); [injection E as _ <-; exact H|]. destruct (from_key _ _ _); injection E as _ <-; exact H.
  - unfold finish_dir_rewrite in E. destruct (t_rw t) as [S|]; injection E as _ <-; [|exact H]. cbn [t_db]. apply DA_fold, H.
  - unfold lock in E. destruct (incref (t_refs t) y 1) as [[|] r']; injection E as _ <-; exact H.
  - unfold release in E. destruct (k =? 0); [injection E as _ <-; exact H|]. destruct (decref (t_refs t) y k) as [[[?|?] ?]| | |]; cbn in E; try discriminate. injection E as _ <-. exact H.
Qed.
Lemma from_stat_ok st : attrs_ok st -> attrs_ok (from_backend_stat st).
Proof. unfold attrs_ok, from_backend_stat, u64. cbn. intuition lia. Qed.

(** the state and the snapshots of running requests *)
Definition AInv (s : fstate) : Prop := DA (s_db s) /\ forall id ds x, s_plus s !! id = Some (ds, x) -> DA ds.
Lemma AInv_after s t : AInv s -> DA (t_db t) -> AInv (after t s).
Proof. intros [H1 H2] H. split; [exact H|exact H2]. Qed.

Lemma emplace_DA t p n a x t1 : TInv t -> is_dir (t_db t) p -> room (t_db t) -> attrs_ok a -> emplace t p n a = Done (x, t1) -> DA (t_db t) -> DA (t_db t1).
Proof.
  intros HT Hd Hr Ha E H. eapply (step_attrs t (OEmplace p n a)); [exact HT|exact (conj Hd Hr)|exact Ha| |exact H]. cbn [step]. unfold drop_val. rewrite E. reflexivity.
Qed.
Lemma lookup_AInv W s k b p n s' l : FInv W s k -> kdir k p -> backend_ok b -> W + 5 < 2 ^ 64 -> lookup_case s b p n s' l -> AInv s -> AInv s'.
Proof.
  intros HF Hk [Hb _] HW Hc HA. pose proof (kdir_is_dir _ _ _ _ HF Hk) as Hdir. pose proof (way_begin W _ _ (fi_dr _ _ _ HF)) as W0.
  pose proof (way_room _ _ _ _ W0 ltac:(lia)) as Hroom. pose proof (way_tinv _ _ _ _ W0) as HT.
  destruct Hc as [?|? ? ? ? ? ?|comps st c t1 t2 Hw Hst E1 E2|comps c a t2 Hw Hst _ _ E2|? ? ? ? ?|? ? ? ? ?|? ? ? ? ? ?|comps e x t1 _ _ _ E1]; try exact HA; apply AInv_after; try exact HA.
  - assert (H1 : DA (t_db t1)) by (eapply emplace_DA; [exact HT|exact Hdir|exact Hroom| |exact E1|exact (proj1 HA)]; apply from_stat_ok; eapply Hb; eassumption).
    unfold lock in E2. destruct (incref _ _ _) as [[?|?] ?]; [|discriminate]; injection E2; intros; subst t2; exact H1.
  - unfold lock in E2. destruct (incref _ _ _) as [[?|?] ?]; [|discriminate]; injection E2; intros; subst t2; exact (proj1 HA).
  - eapply (step_attrs (begun s) (OUnlinkName p n)); [exact HT|exact I|exact I|exact E1|exact (proj1 HA)].
Qed.
Lemma readlink_AInv W s k b x s' l : FInv W s k -> backend_ok b -> readlink_case s b x s' l -> AInv s -> AInv s'.
Proof.
  intros HF [_ Hb] Hc HA. pose proof (way_tinv _ _ _ _ (way_begin W _ _ (fi_dr _ _ _ HF))) as HT.
  destruct Hc as [?|comps link r t1 Hw Hl E1|? ? ? ? ?|? ? ? ? ?|comps e r t1 _ _ _ E1]; try exact HA; apply AInv_after; try exact HA.
  - eapply (step_attrs (begun s) (OWritelink x link)); [exact HT|exact I|eapply Hb; eassumption|exact E1|exact (proj1 HA)].
  - eapply (step_attrs (begun s) (OUnlinkIno x)); [exact HT|exact I|exact I|exact E1|exact (proj1 HA)].
Qed.
Lemma sync_entries_DA W t0 b dir bp names : backend_ok b -> forall i t m W' t', session dir t m -> way W t0 W' t -> W' + Z.of_nat (length names) + 3 < 2 ^ 64 ->
  sync_entries t b dir bp i names = Done t' -> DA (t_db t) -> DA (t_db t').
Proof.
  intros [Hb _]. induction names as [|n names IH]; intros i t m W' t' HS HWay HW E HA; cbn [sync_entries] in E; [injection E as <-; exact HA|].
  cbn [length] in HW. destruct (b_lstat b i (join_path bp n)) as [st|e] eqn:El; [|eapply IH; [exact HS|exact HWay|lia|exact E|exact HA]].
  pose proof (s_dir _ _ _ (session_inv _ _ _ HS)) as Hdir. pose proof (way_room _ _ _ _ HWay ltac:(lia)) as Hroom.
  destruct (emplace t dir n (from_backend_stat st)) as [[x1 t1]| | |] eqn:Ee; try discriminate. cbn [obind] in E.
  destruct (way_emplace _ _ _ _ _ _ _ _ _ HWay Hdir ltac:(lia) Ee) as [W1 R1].
  assert (HS1 : session dir t1 (match x1 with Ok c => <[n := (c, from_backend_stat st)]> m | Err _ => m end)) by (destruct x1; [eapply ses_emplace|eapply ses_reject]; eassumption).
  eapply IH; [exact HS1|exact W1|lia|exact E|]. eapply emplace_DA; [exact (way_tinv _ _ _ _ HWay)|exact Hdir|exact Hroom| |exact Ee|exact HA]. apply from_stat_ok. eapply Hb; eassumption.
Qed.
Lemma opendir_AInv W s k b x s' l : FInv W s k -> kdir k x -> backend_ok b -> W + weight s (QOpendir b x) + 3 < 2 ^ 64 -> h_opendir s b x = Done (s', l) -> AInv s -> AInv s'.
Proof.
  intros HF Hk Hb HW E HA. unfold h_opendir in E. cbn [weight] in HW.
  pose proof (way_begin W _ _ (fi_dr _ _ _ HF)) as W0. pose proof (kdir_is_dir _ _ _ _ HF Hk) as Hdir.
  change (t_db (begin_tx (s_db s) (s_refs s))) with (s_db s) in E.
  destruct (path_spec (s_db s) x (dr_inv _ _ _ (fi_dr _ _ _ HF))) as [(comps & Hw & Hp)|(_ & Hp)]; rewrite Hp in E, HW; cbn [obind] in E; [|injection E as <- _; destruct s; exact HA].
  destruct (b_opendir b (backend_path (spell comps))) as [[names e0]|e]; [|destruct (e =? ENOTCONN); injection E as <- _; destruct s; exact HA].
  destruct (start_dir_rewrite _ x) as [[r1 t1]| | |] eqn:E1; try discriminate. cbn [obind] in E.
  assert (Hr1 : r1 = Ok tt /\ t_db t1 = s_db s). { unfold start_dir_rewrite in E1. cbn in E1. destruct (from_key _ _ _); injection E1; intros; subst; auto. }
  destruct Hr1 as [-> Hd1].
  assert (HS1 : session x t1 ∅).
  { eapply ses_start; [exact (way_tinv _ _ _ _ W0)|reflexivity|exact Hdir| |exact E1].
    intros Hg. apply reclaimable_gone in Hg; [|exact (dr_inv _ _ _ (fi_dr _ _ _ HF))|exact (dr_refs _ _ _ (fi_dr _ _ _ HF))]. revert Hg. eapply linked_not_gone; [exact (dr_inv _ _ _ (fi_dr _ _ _ HF))|exact Hw]. }
  destruct (way_plain W _ _ _ (OStartRewrite x) (Ok tt) t1 W0 ltac:(lia) E1 I) as [W1 _].
  destruct (sync_entries_spec W _ b x (backend_path (spell comps)) names 0 t1 ∅ W HS1 W1 HW) as (t2 & m & E2 & HS2 & W2 & R2 & _). rewrite E2 in E. cbn [obind] in E.
  assert (A2 : DA (t_db t2)) by (eapply sync_entries_DA; [exact Hb|exact HS1|exact W1|exact HW|exact E2|rewrite Hd1; exact (proj1 HA)]).
  destruct (update_flags t2 x [SYNCED] []) as [[r3 t3]| | |] eqn:E3; try discriminate. cbn [obind] in E.
  assert (A3 : DA (t_db t3)) by (eapply (step_attrs t2 (OFlags x [SYNCED] [])); [exact (way_tinv _ _ _ _ W2)|exact I|exact I|exact E3|exact A2]).
  destruct (way_plain W _ _ t2 (OFlags x [SYNCED] []) r3 t3 W2 HW E3 I) as [W3 _].
  destruct (finish_dir_rewrite t3) as [[r4 t4]| | |] eqn:E4; try discriminate. cbn in E. injection E as <- _. split; [|exact (proj2 HA)]. cbn [s_db set_dbr].
  eapply (step_attrs t3 OFinishRewrite); [exact (way_tinv _ _ _ _ W3)|exact I|exact I|exact E4|exact A3].
Qed.
