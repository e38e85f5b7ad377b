(** What the cache knows about a name, and how requests change it. *)
From Verif Require Export FsMain.

(** the entry [n] of [p] is the inode [c] with attributes [a] *)
Definition knows (d : db) (p : Z) (n : bytes) (c : Z) (a : attrs) : Prop := lookup d p n = Ok c /\ getattr d c = Ok a.
(** the same in terms of the tables *)
Definition kn (d : db) (p : Z) (n : bytes) (c : Z) (a : attrs) : Prop :=
  exists e i, d_treen d !! (p, n) = Some e /\ de_ino e = c /\ d_inodes d !! c = Some i /\ i_attr i = a.
Lemma knows_kn d p n c a : Inv d -> u64 p -> knows d p n c a <-> kn d p n c a.
Proof.
  intros H Hu. unfold knows, kn. rewrite (lookup_Ok d p n c H Hu), getattr_Ok. split.
  - intros [(_ & e & He & Hc) (i & Hi & Ha)]. eauto 8.
  - intros (e & i & He & Hc & Hi & Ha). split; [|eauto]. split; [|eauto]. destruct (treen_child _ _ _ _ H He) as (Hti & _). apply (treei_facts _ _ _ _ H) in Hti. tauto.
Qed.
Lemma kn_treei d p n c a : Inv d -> kn d p n c a -> exists e i, d_treei d !! (p, c) = Some e /\ de_name e = n /\ d_inodes d !! c = Some i /\ i_attr i = a /\ i_parent i = p.
Proof.
  intros H (e & i & He & Hc & Hi & Ha). destruct (treen_child _ _ _ _ H He) as (Hti & Hn & j & Hj & Hp). rewrite Hc in *. exists e, i. assert (j = i) by congruence. subst j. auto.
Qed.
Lemma kn_fun d p n c a c' a' : kn d p n c a -> kn d p n c' a' -> c = c' /\ a = a'.
Proof. intros (e & i & He & Hc & Hi & Ha) (e' & i' & He' & Hc' & Hi' & Ha'). assert (e' = e) by congruence. subst e'. subst c c'. split; [reflexivity|congruence]. Qed.
(** an inode is the entry of one name only *)
Lemma kn_inj d p n c a p' n' a' : Inv d -> kn d p n c a -> kn d p' n' c a' -> p = p' /\ n = n'.
Proof.
  intros H H1 H2. destruct (kn_treei _ _ _ _ _ H H1) as (e & i & He & Hn & Hi & _ & Hp). destruct (kn_treei _ _ _ _ _ H H2) as (e' & i' & He' & Hn' & Hi' & _ & Hp').
  assert (i' = i) by congruence. subst i'. subst p p'. split; [reflexivity|congruence].
Qed.
Lemma cleaned_kn R d r p n c a : Inv d -> (forall x, x ∈ R <-> gone d r x) -> kn d p n c a -> kn (cleaned R d) p n c a \/ d_inodes (cleaned R d) !! p = None.
Proof.
  intros H HR Hk. destruct (decide (p ∈ R)) as [Hp|Hp].
  { right. destruct (d_inodes (cleaned R d) !! p) eqn:E; [|reflexivity]. apply cleaned_inodes in E as [? _]. contradiction. }
  left. pose proof (kn_treei _ _ _ _ _ H Hk) as (e' & i' & He' & _ & Hi' & _ & Hip). destruct Hk as (e & i & He & Hc & Hi & Ha).
  destruct (decide (c ∈ R)) as [HcR|HcR].
  - exfalso. destruct (inv_treei _ H _ _ _ He') as (_ & _ & Hp1 & _). apply HR in HcR. inversion HcR as [o Ho _|q c0 e0 Hq He0 _]; subst o || subst c0.
    + destruct (inv_orphan _ H _ Ho) as (j & Hj & Hj0). assert (j = i') by congruence. subst. lia.
    + pose proof (treei_par _ _ _ _ _ H Hi' He0). apply Hp. apply HR. congruence.
  - exists e, (unpar_set R i). split; [apply cleaned_treen; auto|]. split; [assumption|]. split; [apply cleaned_inodes; eauto|]. unfold unpar_set. destruct (decide _); [exact Ha|exact Ha].
Qed.
Lemma cleaned_kn_rev R d p n c a : kn (cleaned R d) p n c a -> kn d p n c a.
Proof.
  intros (e & i & He & Hc & Hi & Ha). apply cleaned_treen in He as [_ He]. apply cleaned_inodes in Hi as (_ & j & Hj & ->). exists e, j. split; [assumption|]. split; [assumption|]. split; [assumption|].
  rewrite <- Ha. unfold unpar_set. destruct (decide _); reflexivity.
Qed.
Lemma detach1_kn d p' c' e' i' p n c a : Inv d -> d_treei d !! (p', c') = Some e' -> d_inodes d !! c' = Some i' -> kn (detach1 p' c' (de_name e') i' d) p n c a <-> kn d p n c a /\ c <> c'.
Proof.
  intros H He' Hi'. destruct (inv_treei _ H _ _ _ He') as (Hde & _ & _ & _ & _ & Htn'). split.
  - intros (e & i & He & Hc & Hi & Ha). cbn [d_treen d_inodes detach1] in He, Hi. apply lookup_delete_Some in He as [Hne He].
    assert (Hcc : c <> c').
    { intros ->. destruct (treen_child _ _ _ _ H He) as (Hti & Hnm & j & Hj & Hjp). rewrite Hc in *. assert (j = i') by congruence. subst j. pose proof (treei_par _ _ _ _ _ H Hi' He'). pose proof (treei_par _ _ _ _ _ H Hi' Hti).
      apply Hne. assert (p = p') by congruence. subst p'. assert (e = e') by congruence. subst. reflexivity. }
    split; [|assumption]. rewrite lookup_insert_ne in Hi by auto. exists e, i. auto.
  - intros [(e & i & He & Hc & Hi & Ha) Hcc]. exists e, i. cbn [d_treen d_inodes detach1]. rewrite lookup_delete_ne, lookup_insert_ne by (auto; intros Heq; injection Heq as -> Hn; apply Hcc; rewrite Hn in Htn'; assert (e = e') by congruence; subst; congruence). auto.
Qed.
Lemma make_orphan_kn d x p n c a : Inv d -> kn (make_orphan d x).2 p n c a <-> kn d p n c a /\ (c <> x).
Proof.
  intros H. destruct (make_orphan_cases d x H) as [(-> & ->)|[(Hx & ->)|[(Hx & ->)|(p' & e' & i' & He' & Hi' & ->)]]]; cbn [snd].
  - split; [|tauto]. intros Hk. split; [assumption|]. intros ->. destruct (kn_treei _ _ _ _ _ H Hk) as (e & i & He & _). destruct (inv_treei _ H _ _ _ He) as (_ & ? & _). congruence.
  - split; [|tauto]. intros Hk. split; [assumption|]. intros ->. destruct (kn_treei _ _ _ _ _ H Hk) as (e & i & _ & _ & Hi & _). congruence.
  - split; [|tauto]. intros Hk. split; [assumption|]. intros ->. destruct (kn_treei _ _ _ _ _ H Hk) as (e & i & He & _ & Hi & _ & Hp). destruct (inv_orphan _ H _ Hx) as (j & Hj & Hj0).
    destruct (inv_treei _ H _ _ _ He) as (_ & _ & ? & _). assert (i = j) by congruence. subst. lia.
  - apply detach1_kn; assumption.
Qed.
Lemma fold_orphan_kn l p n c a : forall d, Inv d -> kn (fold_left (fun d ino => (make_orphan d ino).2) l d) p n c a <-> kn d p n c a /\ c ∉ l.
Proof.
  induction l as [|x l IH]; intros d H; cbn [fold_left]; [split; [intros ?; split; [assumption|apply not_elem_of_nil]|tauto]|].
  rewrite (IH _ (make_orphan_inv d x H)), (make_orphan_kn d x p n c a H), not_elem_of_cons. tauto.
Qed.

Lemma kn_insert_other d x j p n c a : c <> x -> kn (set_inodes (<[x := j]> (d_inodes d)) d) p n c a <-> kn d p n c a.
Proof.
  intros Hne. split; intros (e & i & He & Hc & Hi & Ha); exists e, i; cbn [d_treen d_inodes set_inodes] in *; [rewrite lookup_insert_ne in Hi by auto|rewrite lookup_insert_ne by auto]; auto.
Qed.
Lemma added_kn d p' n' a' k p n c a : Inv d -> d_inodes d !! k = None -> d_treen d !! (p', n') = None ->
  kn (added p' n' a' k d) p n c a <-> kn d p n c a \/ p = p' /\ n = n' /\ c = k /\ a = a'.
Proof.
  intros H Hk Hn. split.
  - intros (e & i & He & Hc & Hi & Ha). cbn [added d_treen d_inodes] in He, Hi. destruct (decide ((p', n') = (p, n))) as [Heq|Hne].
    + injection Heq as <- <-. rewrite lookup_insert in He. injection He as <-. cbn in Hc. subst c. rewrite lookup_insert in Hi. injection Hi as <-. right. auto.
    + rewrite lookup_insert_ne in He by assumption. destruct (treen_child _ _ _ _ H He) as (_ & _ & j & Hj & _). rewrite Hc in Hj. assert (k <> c) by congruence. rewrite lookup_insert_ne in Hi by assumption.
      left. exists e, i. auto.
  - intros [(e & i & He & Hc & Hi & Ha)|(-> & -> & -> & ->)].
    + exists e, i. cbn [added d_treen d_inodes]. rewrite !lookup_insert_ne by congruence. auto.
    + exists (Dirent 0 0 k n'), (mkinode a' p'). cbn [added d_treen d_inodes]. rewrite !lookup_insert. auto.
Qed.
Lemma detached_name_kn d p' n' p n c a : Inv d -> kn (detached_name d p' n') p n c a <-> kn d p n c a /\ (p, n) <> (p', n').
Proof.
  intros H. unfold detached_name. destruct (d_treen d !! (p', n')) as [e'|] eqn:He'.
  - destruct (treen_child _ _ _ _ H He') as (Hti & Hnm & i' & Hi' & _). rewrite Hi'. rewrite <- Hnm. rewrite (detach1_kn d p' (de_ino e') e' i' p n c a H Hti Hi'). rewrite Hnm.
    split; intros [Hk Hne]; (split; [assumption|]).
    + intros Heq. injection Heq as -> ->. destruct Hk as (e & i & He & Hc & _). congruence.
    + intros ->. apply Hne. assert (Hk' : kn d p' n' (de_ino e') (i_attr i')) by (exists e', i'; auto). destruct (kn_inj _ _ _ _ _ _ _ _ H Hk Hk') as [-> ->]. reflexivity.
  - split; [|tauto]. intros Hk. split; [assumption|]. intros Heq. injection Heq as -> ->. destruct Hk as (e & i & He & _). congruence.
Qed.
Lemma emplace_kn t p' n' a' x t1 p n c a : TInv t -> is_dir (t_db t) p' -> room (t_db t) -> emplace t p' n' a' = Done (x, t1) ->
  ((p, n) <> (p', n') -> kn (t_db t) p n c a -> kn (t_db t1) p n c a \/ d_inodes (t_db t1) !! p = None) /\
  (kn (t_db t1) p n c a -> (p, n) <> (p', n') /\ kn (t_db t) p n c a \/ p = p' /\ n = n' /\ x = Ok c /\ a = a' \/ x <> Ok c /\ kn (t_db t) p n c a /\ ~ valid_name n').
Proof.
  intros HT Hd Hr E. pose proof (tinv_db _ HT) as H.
  destruct (emplace_spec t p' n' a' HT Hd Hr) as [(err & Hcn & E')|[(Hv & e' & i' & He' & Hi' & Hty & E' & HT')|(Hv & Hty & k & R & Hk & Hfresh & Hd1 & HR & E' & HT')]]; rewrite E' in E; injection E as <- <-.
  - split; [auto|]. intros Hkn. right. right. split; [discriminate|]. split; [assumption|]. unfold valid_name. congruence.
  - cbn [t_db]. assert (Hk' : kn (t_db t) p' n' (de_ino e') (i_attr i')) by (exists e', i'; auto). split.
    + intros Hne Hkn. left. apply kn_insert_other; [|assumption]. intros ->. destruct (kn_inj _ _ _ _ _ _ _ _ H Hkn Hk') as [-> ->]. congruence.
    + intros Hkn. destruct (decide (c = de_ino e')) as [->|Hne].
      * assert (HI : Inv (set_inodes (<[de_ino e' := mkinode a' p']> (d_inodes (t_db t))) (t_db t))) by exact (tinv_db _ HT').
        assert (Hk2 : kn (set_inodes (<[de_ino e' := mkinode a' p']> (d_inodes (t_db t))) (t_db t)) p' n' (de_ino e') a').
        { exists e', (mkinode a' p'). cbn [d_treen d_inodes set_inodes]. rewrite lookup_insert. auto. }
        destruct (kn_inj _ _ _ _ _ _ _ _ HI Hkn Hk2) as [-> ->]. destruct (kn_fun _ _ _ _ _ _ _ Hkn Hk2) as [_ ->]. right. left. auto.
      * apply kn_insert_other in Hkn; [|assumption]. left. split; [|assumption]. intros Heq. injection Heq as -> ->. destruct (kn_fun _ _ _ _ _ _ _ Hkn Hk') as [? _]. contradiction.
  - cbn [t_db]. destruct (detached_name_spec (t_db t) p' n' H) as (Hdi & Hdn & Hdx & _).
    assert (Hdk : d_inodes (detached_name (t_db t) p' n') !! k = None).
    { destruct (d_inodes (detached_name (t_db t) p' n') !! k) eqn:Ek; [|reflexivity]. destruct (inv_next _ Hdi) as (m & Hm & _ & Hlt). specialize (Hlt _ _ Ek). rewrite Hdx, Hk in Hm. injection Hm as <-. lia. }
    split.
    + intros Hne Hkn. eapply cleaned_kn; [exact Hd1|exact HR|]. apply (added_kn _ _ _ _ _ _ _ _ _ Hdi Hdk Hdn). left. apply detached_name_kn; auto.
    + intros Hkn. apply cleaned_kn_rev in Hkn. apply (added_kn _ _ _ _ _ _ _ _ _ Hdi Hdk Hdn) in Hkn as [Hkn|(-> & -> & -> & ->)]; [|right; left; auto].
      apply detached_name_kn in Hkn as [? ?]; [|assumption]. left. auto.
Qed.
Lemma unlink_ino_kn t y x t1 p n c a : TInv t -> unlink_ino t y = Done (x, t1) ->
  (c <> y -> kn (t_db t) p n c a -> kn (t_db t1) p n c a \/ d_inodes (t_db t1) !! p = None) /\
  (kn (t_db t1) p n c a -> kn (t_db t) p n c a /\ c <> y).
Proof.
  intros HT E. pose proof (tinv_db _ HT) as H. pose proof (make_orphan_kn (t_db t) y p n c a H) as HM. pose proof (make_orphan_inv (t_db t) y H) as Hi1.
  unfold unlink_ino in E. destruct (make_orphan (t_db t) y) as [[u|e] d1]; cbn [snd] in *.
  - destruct (tx_clean_spec (with_db d1 t)) as (R & HR & Ec & _); [destruct HT; split; assumption|]. rewrite Ec in E. cbn in E. injection E as _ <-. cbn [t_db t_refs with_db] in *. split.
    + intros Hne Hk. eapply cleaned_kn; [exact Hi1|exact HR|]. apply HM. auto.
    + intros Hk. apply cleaned_kn_rev in Hk. apply HM. assumption.
  - injection E as _ <-. cbn [t_db with_db]. split; [intros; left; apply HM; auto|apply HM].
Qed.
Lemma unlink_name_kn t p' n' x t1 p n c a : TInv t -> unlink_name t p' n' = Done (x, t1) ->
  ((p, n) <> (p', n') -> kn (t_db t) p n c a -> kn (t_db t1) p n c a \/ d_inodes (t_db t1) !! p = None) /\
  (kn (t_db t1) p n c a -> kn (t_db t) p n c a /\ (p, n) <> (p', n')).
Proof.
  intros HT E. pose proof (tinv_db _ HT) as H. unfold unlink_name in E. destruct (d_treen (t_db t) !! (p', n')) as [e|] eqn:He.
  - destruct (treen_child _ _ _ _ H He) as (_ & _ & i & Hi & _). assert (Hk' : kn (t_db t) p' n' (de_ino e) (i_attr i)) by (exists e, i; auto).
    destruct (unlink_ino_kn t (de_ino e) x t1 p n c a HT E) as [F B]. split.
    + intros Hne Hk. apply F; [|assumption]. intros ->. destruct (kn_inj _ _ _ _ _ _ _ _ H Hk Hk') as [-> ->]. congruence.
    + intros Hk. destruct (B Hk) as [Hk1 Hne]. split; [assumption|]. intros Heq. injection Heq as -> ->. destruct (kn_fun _ _ _ _ _ _ _ Hk1 Hk') as [? _]. contradiction.
  - injection E as _ <-. split; [auto|]. intros Hk. split; [assumption|]. intros Heq. injection Heq as -> ->. destruct Hk as (e & ? & ? & _). congruence.
Qed.
Lemma writelink_kn t y b x t1 p n c a : writelink t y b = Done (x, t1) ->
  (c <> y -> kn (t_db t) p n c a -> kn (t_db t1) p n c a) /\
  (kn (t_db t1) p n c a -> kn (t_db t) p n c a \/ c = y /\ exists a0, kn (t_db t) p n c a0 /\ a = set_size (Z.of_nat (length b)) a0).
Proof.
  intros E. unfold writelink in E. destruct (d_inodes (t_db t) !! y) as [j|] eqn:Ej; [|injection E as _ <-; auto]. destruct (negb _); injection E as _ <-; [auto|]. cbn [t_db with_db]. split.
  - intros Hne Hk. apply (kn_insert_other (t_db t) y _ p n c a Hne). assumption.
  - intros (e & i & He & Hc & Hi & Ha). cbn [set_links set_inodes d_treen d_inodes] in He, Hi. destruct (decide (y = c)) as [->|Hne].
    + rewrite lookup_insert in Hi. injection Hi as <-. right. split; [reflexivity|]. exists (i_attr j). split; [exists e, j; auto|]. rewrite <- Ha. reflexivity.
    + rewrite lookup_insert_ne in Hi by assumption. left. exists e, i. auto.
Qed.
Lemma update_flags_kn t y s cl x t1 p n c a : update_flags t y s cl = Done (x, t1) -> kn (t_db t1) p n c a <-> kn (t_db t) p n c a.
Proof.
  intros E. unfold update_flags in E. destruct (d_inodes (t_db t) !! y) as [j|] eqn:Ej; injection E as _ <-; [|reflexivity]. cbn [t_db with_db]. destruct (decide (c = y)) as [->|Hne]; [|apply kn_insert_other; assumption].
  split; intros (e & i & He & Hc & Hi & Ha); cbn [d_treen d_inodes set_inodes] in *.
  - rewrite lookup_insert in Hi. injection Hi as <-. exists e, j. auto.
  - assert (i = j) by congruence. subst i. eexists e, _. cbn [d_treen d_inodes set_inodes]. rewrite lookup_insert. split; [exact He|]. split; [exact Hc|]. split; [reflexivity|]. exact Ha.
Qed.

(** ** requests *)
(** an inode that was removed: its number is not given out again *)
Definition lost (d : db) (p : Z) : Prop := d_inodes d !! p = None /\ exists k, d_next d = Some k /\ p < k.
Lemma step_lost t o res t' p : TInv t -> legal t o -> step t o = Done (res, t') -> lost (t_db t) p -> lost (t_db t') p.
Proof.
  intros HT Hl E [Hn (k & Hk & Hlt)]. destruct (step_fr t o res t' HT Hl E) as [_ [(k1 & k2 & Hk1 & Hk2 & Hle & Hnew) _]]. assert (k1 = k) by congruence. subst k1. split; [|exists k2; split; [assumption|lia]].
  destruct (d_inodes (t_db t') !! p) eqn:Ep; [|reflexivity]. specialize (Hnew _ _ Hn Ep). lia.
Qed.
Lemma kn_or_lost t o res t' p n c a : TInv t -> legal t o -> step t o = Done (res, t') -> kn (t_db t) p n c a ->
  kn (t_db t') p n c a \/ d_inodes (t_db t') !! p = None -> kn (t_db t') p n c a \/ lost (t_db t') p.
Proof.
  intros HT Hl E Hk [?|Hn]; [auto|]. right. split; [assumption|]. destruct (step_fr t o res t' HT Hl E) as [_ [(k1 & k2 & Hk1 & Hk2 & Hle & _) _]]. exists k2. split; [assumption|].
  destruct (kn_treei _ _ _ _ _ (tinv_db _ HT) Hk) as (e & i & He & _). destruct (inv_treei _ (tinv_db _ HT) _ _ _ He) as (_ & _ & _ & (j & Hj & _) & _).
  destruct (inv_next _ (tinv_db _ HT)) as (k & Hk' & _ & Hlt). specialize (Hlt _ _ Hj). assert (k = k1) by congruence. lia.
Qed.
Lemma kn_valid d p n c a : Inv d -> kn d p n c a -> valid_name n.
Proof. intros H (e & i & He & _). apply (inv_treen _ H _ _ _ He). Qed.
Lemma kn_u64 d p n c a : Inv d -> kn d p n c a -> u64 p.
Proof. intros H (e & i & He & _). apply (treen_u64 _ _ _ H He). Qed.
(** what is known of [n] in [p], or [p] is lost *)
Definition kol (p : Z) (n : bytes) (c : Z) (a : attrs) (d : db) : Prop := kn d p n c a \/ lost d p.
Lemma emplace_kol t p' n' a' x t1 p n c a : TInv t -> is_dir (t_db t) p' -> room (t_db t) -> emplace t p' n' a' = Done (x, t1) -> (p, n) <> (p', n') ->
  kol p n c a (t_db t) -> kol p n c a (t_db t1).
Proof.
  intros HT Hd Hr E Hne Hk. assert (Es : exists r, step t (OEmplace p' n' a') = Done (r, t1)) by (cbn [step]; unfold drop_val; rewrite E; eexists; reflexivity). destruct Es as [r Es].
  destruct Hk as [Hk|Hk]; [|right; apply (step_lost t (OEmplace p' n' a') r t1 p HT (conj Hd Hr) Es Hk)].
  apply (kn_or_lost t (OEmplace p' n' a') r t1 p n c a HT (conj Hd Hr) Es Hk). apply (proj1 (emplace_kn t p' n' a' x t1 p n c a HT Hd Hr E)); assumption.
Qed.
Lemma emplace_kn_rev t p' n' a' x t1 p n c a : TInv t -> is_dir (t_db t) p' -> room (t_db t) -> emplace t p' n' a' = Done (x, t1) ->
  kn (t_db t1) p n c a -> (p, n) <> (p', n') /\ kn (t_db t) p n c a \/ p = p' /\ n = n' /\ x = Ok c /\ a = a'.
Proof.
  intros HT Hd Hr E Hk. destruct (proj2 (emplace_kn t p' n' a' x t1 p n c a HT Hd Hr E) Hk) as [?|[?|(_ & Hk' & Hv)]]; [auto..|]. left. split; [|assumption].
  intros Heq. injection Heq as -> ->. apply Hv. eapply kn_valid; [exact (tinv_db _ HT)|exact Hk'].
Qed.
(** the loop of opendir keeps what each of its steps keeps *)
Lemma sync_entries_inv (P : tx -> Prop) W t0 b dir bp names :
  (forall t n a x t1, TInv t -> is_dir (t_db t) dir -> room (t_db t) -> emplace t dir n a = Done (x, t1) -> P t -> P t1) ->
  forall i t m W' t', session dir t m -> way W t0 W' t -> W' + Z.of_nat (length names) + 3 < 2 ^ 64 -> sync_entries t b dir bp i names = Done t' -> P t -> P t'.
Proof.
  intros HP. induction names as [|n names IH]; intros i t m W' t' HS HWay HW E HA; cbn [sync_entries] in E; [injection E as <-; exact HA|].
  cbn [length] in HW. destruct (b_lstat b i (join_path bp n)) as [st|e] eqn:El; [|eapply IH; [exact HS|exact HWay|lia|exact E|exact HA]].
  pose proof (s_dir _ _ _ (session_inv _ _ _ HS)) as Hdir. pose proof (way_room _ _ _ _ HWay ltac:(lia)) as Hroom.
  destruct (emplace t dir n (from_backend_stat st)) as [[x1 t1]| | |] eqn:Ee; try discriminate. cbn [obind] in E.
  destruct (way_emplace _ _ _ _ _ _ _ _ _ HWay Hdir ltac:(lia) Ee) as [W1 R1].
  assert (HS1 : session dir t1 (match x1 with Ok c => <[n := (c, from_backend_stat st)]> m | Err _ => m end)) by (destruct x1; [eapply ses_emplace|eapply ses_reject]; eassumption).
  eapply IH; [exact HS1|exact W1|lia|exact E|]. eapply HP; [exact (way_tinv _ _ _ _ HWay)|exact Hdir|exact Hroom|exact Ee|exact HA].
Qed.
Lemma finish_kn dir t m res t' p n c a : session dir t m -> finish_dir_rewrite t = Done (res, t') -> p <> dir -> kn (t_db t') p n c a <-> kn (t_db t) p n c a.
Proof.
  intros HS E Hne. pose proof (session_inv _ _ _ HS) as HI. pose proof (tinv_db _ (s_inv _ _ _ HI)) as H. unfold finish_dir_rewrite in E. destruct (t_rw t) as [S|] eqn:Er; injection E as _ <-; [|reflexivity]. cbn [t_db].
  rewrite fold_orphan_kn by assumption. split; [tauto|]. intros Hk. split; [assumption|]. rewrite (merge_sort_Permutation Z.le (elements S)), elem_of_elements. intros HcS.
  destruct (kn_treei _ _ _ _ _ H Hk) as (e & i & He & _). apply Hne. eapply (s_old _ _ _ HI c); [rewrite Er; exact HcS|exact He].
Qed.
Record sync_facts (s : fstate) (b : backend) (x : Z) (bp : bytes) (names : list bytes) (t4 : tx) : Prop := {
  sf_keep : forall p n c a, p <> x -> kol p n c a (s_db s) -> kol p n c a (t_db t4);
  sf_old : forall p n c a, p <> x -> kn (t_db t4) p n c a -> kn (s_db s) p n c a;
  sf_here : forall n a, (exists c, kn (t_db t4) x n c a) <-> valid_name n /\ last_stat b bp 0 names n None = Some a;
  sf_lost : forall p, lost (s_db s) p -> lost (t_db t4) p;
  sf_flag : test_flag (t_db t4) x SYNCED = Ok true;
  sf_flags : forall y, y <> x -> test_flag (t_db t4) y SYNCED = Ok true -> test_flag (s_db s) y SYNCED = Ok true }.
Lemma flag_set_test fl : flag_test (flag_set fl SYNCED) SYNCED = true.
Proof.
  unfold flag_test, flag_set, SYNCED, w16. change (2 ^ 0) with 1. rewrite negb_true_iff, Z.eqb_neq. intros E.
  assert (Hb : Z.testbit (Z.land (Z.lor fl 1 mod 2 ^ 16) 1) 0 = true).
  { rewrite Z.land_spec, Z.mod_pow2_bits_low by lia. rewrite Z.lor_spec. cbn. rewrite orb_true_r. reflexivity. }
  rewrite E in Hb. discriminate.
Qed.
(** flags only appear by update_flags *)
Lemma emplace_flag t p n a x t1 y : TInv t -> is_dir (t_db t) p -> room (t_db t) -> emplace t p n a = Done (x, t1) ->
  test_flag (t_db t1) y SYNCED = Ok true -> test_flag (t_db t) y SYNCED = Ok true.
Proof.
  intros HT Hd Hr E Hf. pose proof (tinv_db _ HT) as H.
  destruct (emplace_spec t p n a HT Hd Hr) as [(err & Hcn & E')|[(Hv & e' & i' & He' & Hi' & Hty & E' & HT')|(Hv & Hty & k & R & Hk & Hfresh & Hd1 & HR & E' & HT')]]; rewrite E' in E; injection E as <- <-; [exact Hf|..]; cbn [t_db] in Hf.
  - unfold test_flag in *. cbn [d_inodes set_inodes] in Hf. destruct (decide (de_ino e' = y)) as [<-|Hne]; [rewrite lookup_insert in Hf; discriminate|]. rewrite lookup_insert_ne in Hf by assumption. exact Hf.
  - rewrite cleaned_test_flag in Hf. destruct (decide (y ∈ R)); [discriminate|]. unfold test_flag in *. cbn [d_inodes added] in Hf. destruct (decide (k = y)) as [->|Hne]; [rewrite lookup_insert in Hf; discriminate|].
    rewrite lookup_insert_ne in Hf by assumption. revert Hf. unfold detached_name. destruct (d_treen (t_db t) !! (p, n)) as [e|]; [|auto]. destruct (d_inodes (t_db t) !! de_ino e) as [i|] eqn:Ei; [|auto]. cbn [d_inodes detach1].
    destruct (decide (de_ino e = y)) as [<-|Hne']; [rewrite lookup_insert, Ei; auto|rewrite lookup_insert_ne by assumption; auto].
Qed.
Lemma make_orphan_flag d x y f : Inv d -> test_flag (make_orphan d x).2 y f = test_flag d y f.
Proof.
  intros H. destruct (make_orphan_cases d x H) as [(_ & ->)|[(_ & ->)|[(_ & ->)|(p & e & i & He & Hi & ->)]]]; cbn [snd]; try reflexivity. apply detach1_test_flag. assumption.
Qed.
Lemma fold_orphan_flag l y f : forall d, Inv d -> test_flag (fold_left (fun d ino => (make_orphan d ino).2) l d) y f = test_flag d y f.
Proof. induction l as [|x l IH]; intros d H; [reflexivity|]. cbn [fold_left]. rewrite (IH _ (make_orphan_inv d x H)). apply make_orphan_flag. assumption. Qed.

Lemma sync_facts_ok s b x comps names t1 t2 m t3 r t4 : is_dir (s_db s) x ->
    start_dir_rewrite (begun s) x = Done (Ok tt, t1) ->
    (exists W t0 W', session x t1 ∅ /\ way W t0 W' t1 /\ W' + Z.of_nat (length names) + 3 < 2 ^ 64) ->
    sync_entries t1 b x (backend_path (spell comps)) 0 names = Done t2 -> session x t2 m ->
    (forall n, valid_name n -> snd <$> m !! n = last_stat b (backend_path (spell comps)) 0 names n None) ->
    (forall n, ~ valid_name n -> m !! n = None) ->
    update_flags t2 x [SYNCED] [] = Done (Ok tt, t3) -> finish_dir_rewrite t3 = Done (r, t4) ->
  sync_facts s b x (backend_path (spell comps)) names t4.
Proof.
  intros Hdirx E1 (W & t0 & W' & HS1 & HW1 & HWl) E2 HS2 Hm Hm' E3 E4.
  assert (Hd1 : t_db t1 = s_db s). { unfold start_dir_rewrite in E1. cbn in E1. destruct (from_key _ _ _); injection E1; intros; subst; reflexivity. }
  assert (HS3 : session x t3 m) by (eapply ses_flags; eassumption).
  pose proof (s_inv _ _ _ (session_inv _ _ _ HS2)) as HT2. pose proof (s_inv _ _ _ (session_inv _ _ _ HS3)) as HT3.
  assert (Hind : forall P : db -> Prop, (forall t n a y t1, TInv t -> is_dir (t_db t) x -> room (t_db t) -> emplace t x n a = Done (y, t1) -> P (t_db t) -> P (t_db t1)) -> P (s_db s) -> P (t_db t2)).
  { intros P HP H0. eapply (sync_entries_inv (fun t => P (t_db t)) W t0 b x (backend_path (spell comps)) names); [|exact HS1|exact HW1|exact HWl|exact E2|rewrite Hd1; exact H0].
    intros t n a y t' A1 A2 A3 A4. apply (HP t n a y t'); assumption. }
  assert (Hlost : forall p, lost (s_db s) p -> lost (t_db t4) p).
  { intros p Hp. assert (H2 : lost (t_db t2) p).
    { revert Hp. apply (Hind (fun d => lost d p)). intros t n a y t' A1 A2 A3 A4 A5. assert (Es : exists r, step t (OEmplace x n a) = Done (r, t')) by (cbn [step]; unfold drop_val; rewrite A4; eexists; reflexivity). destruct Es as [r' Es].
      exact (step_lost t (OEmplace x n a) r' t' p A1 (conj A2 A3) Es A5). }
    apply (step_lost t3 OFinishRewrite r t4 p HT3 I E4). exact (step_lost t2 (OFlags x [SYNCED] []) (Ok tt) t3 p HT2 I E3 H2). }
  destruct (session_finish x t3 m HS3) as (res & t4' & E4' & _ & HT4 & _ & _ & _ & Hlk & _ & Hsame & Hga & _). rewrite E4 in E4'. injection E4' as <- <-.
  pose proof (tinv_db _ HT4) as H4. destruct (s_dir _ _ _ (session_inv _ _ _ HS3)) as (ix & Hix & _). pose proof (inode_range _ _ _ (tinv_db _ HT3) Hix) as [_ Hux].
  split.
  - intros p n c a Hne Hk. assert (H2 : kol p n c a (t_db t2)).
    { revert Hk. apply (Hind (kol p n c a)). intros t n' a' y t' A1 A2 A3 A4 A5. eapply (emplace_kol t x n' a' y t'); try eassumption. congruence. }
    destruct H2 as [H2|H2].
    + left. eapply finish_kn; [exact HS3|exact E4|exact Hne|]. eapply update_flags_kn; [exact E3|exact H2].
    + right. apply (step_lost t3 OFinishRewrite r t4 p HT3 I E4). exact (step_lost t2 (OFlags x [SYNCED] []) (Ok tt) t3 p HT2 I E3 H2).
  - intros p n c a Hne Hk. apply (finish_kn _ _ _ _ _ _ _ _ _ HS3 E4 Hne) in Hk. apply (update_flags_kn _ _ _ _ _ _ _ _ _ _ E3) in Hk.
    revert Hk. apply (Hind (fun d => kn d p n c a -> kn (s_db s) p n c a)); [|auto]. intros t n' a' y t' A1 A2 A3 A4 A5 A6.
    destruct (emplace_kn_rev _ _ _ _ _ _ _ _ _ _ A1 A2 A3 A4 A6) as [[_ ?]|(? & _)]; [auto|contradiction].
  - intros n a. split.
    + intros [c Hk]. pose proof (kn_valid _ _ _ _ _ H4 Hk) as Hv. split; [assumption|]. apply (knows_kn _ _ _ _ _ H4 Hux) in Hk as [Hk1 Hk2]. apply Hlk in Hk1 as [a' Hmn].
      specialize (Hga _ _ _ Hmn). rewrite Hk2 in Hga. injection Hga as <-. rewrite <- (Hm n Hv), Hmn. reflexivity.
    + intros [Hv Hl]. rewrite <- (Hm n Hv) in Hl. destruct (m !! n) as [[c a']|] eqn:Emn; [|discriminate]. cbn in Hl. injection Hl as ->. exists c. apply (knows_kn _ _ _ _ _ H4 Hux). split; [apply Hlk; eauto|eapply Hga; eassumption].
  - exact Hlost.
  - destruct (Hsame x) as (_ & _ & ->). unfold update_flags in E3. destruct (d_inodes (t_db t2) !! x) as [j|] eqn:Ej; [|discriminate]. injection E3 as <-. cbn [t_db with_db]. unfold test_flag. cbn [d_inodes set_inodes]. rewrite lookup_insert. cbn [i_flags fold_left]. rewrite flag_set_test. reflexivity.
  - intros y Hne Hf. destruct (Hsame y) as (_ & _ & Hs). rewrite Hs in Hf.
    assert (H2 : test_flag (t_db t2) y SYNCED = Ok true).
    { unfold update_flags in E3. destruct (d_inodes (t_db t2) !! x) as [j|] eqn:Ej; [|discriminate]. injection E3 as <-. cbn [t_db with_db] in Hf. unfold test_flag in *. cbn [d_inodes set_inodes] in Hf. rewrite lookup_insert_ne in Hf by auto. exact Hf. }
    revert H2. apply (Hind (fun d => test_flag d y SYNCED = Ok true -> test_flag (s_db s) y SYNCED = Ok true)); [|auto]. intros t n a z t' A1 A2 A3 A4 A5 A6. apply A5. eapply emplace_flag; eassumption.
Qed.
