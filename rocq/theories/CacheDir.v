(** Directory rewriting: start_dir_rewrite, emplace..., finish_dir_rewrite. *)
From Verif Require Export CacheRuns.

Lemma rewrite_scan_spec d dir x : Inv d -> u64 dir ->
  x ∈ rewrite_scan dir (from_key enc_ii (d_treei d) (le64 dir)) <-> exists e, d_treei d !! (dir, x) = Some e.
Proof.
  intros H Hu. rewrite raw_split by assumption.
  assert (Ho : forall k e, (k, e) ∈ raw_others d dir -> k.1 <> dir).
  { unfold raw_others. intros k e Hk. apply elem_of_list_filter in Hk as [Hk _]. cbn in Hk. tauto. }
  assert (Hs : rewrite_scan dir (raw_others d dir) = ∅).
  { destruct (raw_others d dir) as [|[[q c] e] l]; [reflexivity|]. cbn. pose proof (Ho (q, c) e ltac:(left)) as Hq. cbn in Hq.
    rewrite (proj2 (Z.eqb_neq _ _) Hq). reflexivity. }
  assert (Hscan : forall l : list ((Z * Z) * dirent), (forall k e, (k, e) ∈ l -> k.1 = dir) ->
     forall l2, x ∈ rewrite_scan dir (l ++ l2) <-> (exists e, ((dir, x), e) ∈ l) \/ x ∈ rewrite_scan dir l2).
  { induction l as [|[[q c] e] l IH]; intros Hl l2; cbn [rewrite_scan app].
    - split; [auto|]. intros [(e & He)|]; [apply elem_of_nil in He; contradiction|assumption].
    - assert (q = dir) as -> by (apply (Hl (q, c) e); left). rewrite Z.eqb_refl.
      rewrite elem_of_union, elem_of_singleton. rewrite IH by (intros k e' Hk; apply (Hl k e'); right; assumption). split.
      + intros [->|[(e' & He')|Hx]]; [left; exists e; left|left; exists e'; right; assumption|right; assumption].
      + intros [(e' & He')|Hx]; [|auto]. apply elem_of_cons in He' as [E|He']; [injection E as -> ->; auto|eauto]. }
  rewrite Hscan by (intros k e Hk; apply (raw_entries_dir _ _ _ _ Hk)). rewrite Hs. split.
  - intros [(e & He)|Hx]; [exists e; apply (raw_entries_dir _ _ _ _ He)|set_solver].
  - intros (e & He). left. exists e. apply elem_raw_entries; auto.
Qed.

Lemma make_orphan_treen d c q n e : Inv d ->
  d_treen (make_orphan d c).2 !! (q, n) = Some e <-> d_treen d !! (q, n) = Some e /\ de_ino e <> c.
Proof.
  intros H. destruct (make_orphan_cases d c H) as [[Hc E]|[[Hc E]|[[Hc E]|(p & e' & i & He & Hi & E)]]]; rewrite E; cbn [snd].
  - split; [|tauto]. intros Hn. split; [assumption|]. destruct (treen_child _ _ _ _ H Hn) as (Hti & _).
    destruct (treei_facts _ _ _ _ H Hti) as (_ & _ & _ & ? & _). congruence.
  - split; [|tauto]. intros Hn. split; [assumption|]. destruct (treen_child _ _ _ _ H Hn) as (_ & _ & i & Hi & _). congruence.
  - split; [|tauto]. intros Hn. split; [assumption|]. destruct (treen_child _ _ _ _ H Hn) as (Hti & _ & i & Hi & Hp).
    intros Ec. rewrite Ec in *. destruct (inv_orphan _ H _ Hc) as (j & Hj & Hj0). destruct (treei_facts _ _ _ _ H Hti) as (_ & _ & _ & _ & ? & _). congruence.
  - cbn. rewrite lookup_delete_Some. split.
    + intros [Hne Hn]. split; [assumption|]. intros Ec. destruct (treen_child _ _ _ _ H Hn) as (Hti & Hnm & i' & Hi' & Hp').
      rewrite Ec in *. pose proof (treei_par _ _ _ _ _ H Hi He). pose proof (treei_par _ _ _ _ _ H Hi Hti). subst.
      assert (e' = e) by congruence. subst. apply Hne. congruence.
    + intros [Hn Hne]. split; [|assumption]. intros Ek. injection Ek as -> Hnm.
      destruct (inv_treei _ H _ _ _ He) as (Hino & _ & _ & _ & _ & Hn'). rewrite Hnm in Hn'. congruence.
Qed.
Lemma fold_orphan_treen l d q n e : Inv d ->
  d_treen (fold_left (fun d ino => (make_orphan d ino).2) l d) !! (q, n) = Some e <->
  d_treen d !! (q, n) = Some e /\ de_ino e ∉ l.
Proof.
  revert d. induction l as [|c l IH]; intros d H; cbn [fold_left].
  - split; [intros; split; [assumption|apply not_elem_of_nil]|tauto].
  - rewrite IH by (apply make_orphan_inv; assumption). rewrite make_orphan_treen by assumption. rewrite not_elem_of_cons. tauto.
Qed.

(** A rewrite session on [dir]: it starts with start_dir_rewrite, then entries are emplaced
    in [dir] and inodes are locked or their flags and link targets changed.  [m] maps each
    name emplaced so far to the inode number and attributes of its last emplace. *)
Inductive session (dir : Z) : tx -> gmap bytes (Z * attrs) -> Prop :=
| ses_start t t1 : TInv t -> t_rw t = None -> is_dir (t_db t) dir -> ~ reclaimable (t_db t) (t_refs t) dir ->
    start_dir_rewrite t dir = Done (Ok tt, t1) -> session dir t1 ∅
| ses_emplace t m n a i t1 : session dir t m -> room (t_db t) ->
    emplace t dir n a = Done (Ok i, t1) -> session dir t1 (<[n := (i, a)]> m)
| ses_reject t m n a e t1 : session dir t m -> room (t_db t) ->
    emplace t dir n a = Done (Err e, t1) -> session dir t1 m
| ses_flags t m x s c r t1 : session dir t m -> update_flags t x s c = Done (r, t1) -> session dir t1 m
| ses_lock t m x r t1 : session dir t m -> refcount (t_refs t) x + 1 < 2 ^ 64 ->
    lock t x = Done (r, t1) -> session dir t1 m.

Record SInv (dir : Z) (t : tx) (m : gmap bytes (Z * attrs)) : Prop := {
  s_inv : TInv t;
  s_dir : is_dir (t_db t) dir;
  s_gone : ~ gone (t_db t) (t_refs t) dir;
  s_set : forall n e, d_treen (t_db t) !! (dir, n) = Some e -> (de_ino e ∈ default ∅ (t_rw t) <-> m !! n = None);
  s_m : forall n i a, m !! n = Some (i, a) -> exists e, d_treen (t_db t) !! (dir, n) = Some e /\ de_ino e = i /\ getattr (t_db t) i = Ok a;
  s_old : forall x, x ∈ default ∅ (t_rw t) -> (exists k, d_next (t_db t) = Some k /\ x < k) /\
            forall p e, d_treei (t_db t) !! (p, x) = Some e -> p = dir }.

Lemma gone_more d r r' x : (forall y, refcount r y <= 0 -> refcount r' y <= 0) -> gone d r x -> gone d r' x.
Proof.
  intros Hr. induction 1 as [x Hx Hrx|q x f Hq IH Hf Hrx]; [apply gone_orphan; auto|eapply gone_child; eauto].
Qed.
Lemma gone_tables d d' r x : d_orphans d' = d_orphans d -> d_treei d' = d_treei d -> gone d r x -> gone d' r x.
Proof.
  intros Ho Ht. induction 1 as [x Hx Hrx|q x f Hq IH Hf Hrx]; [apply gone_orphan; congruence|eapply gone_child; [eassumption|rewrite Ht; eassumption|assumption]].
Qed.
Lemma is_dir_u64 d x : Inv d -> is_dir d x -> u64 x /\ x <> 0.
Proof. intros H (i & Hi & _). apply (u64_of_inode _ _ _ H Hi). Qed.
Lemma gone_cleaned d r R x : Inv d -> (forall x, x ∈ R <-> gone d r x) -> ~ gone (cleaned R d) (doom_all R r) x.
Proof.
  intros H HR. apply gone_nil. intros o Ho. rewrite refcount_doom_all. eapply cleaned_no_gone; eassumption.
Qed.

Lemma session_inv dir t m : session dir t m -> SInv dir t m.
Proof.
  induction 1 as [t t1 HT Hrw Hd Hnr E|t m n a i t1 _ IH Hroom E|t m n a er t1 _ IH Hroom E|t m x s c r t1 _ IH E|t m x r t1 _ IH Hov E].
  - pose proof (tinv_db _ HT) as H. rewrite reclaimable_gone in Hnr by (assumption || apply (tinv_refs _ HT)).
    destruct (is_dir_u64 _ _ H Hd) as [Hu Hd0].
    unfold start_dir_rewrite in E. rewrite Hrw in E.
    pose proof (fun x => rewrite_scan_spec (t_db t) dir x H Hu) as Hs.
    destruct (inv_next' _ H) as (k & Hk & _ & Hlt).
    assert (Hold : forall x e, d_treei (t_db t) !! (dir, x) = Some e -> (exists k, d_next (t_db t) = Some k /\ x < k) /\
        forall p e, d_treei (t_db t) !! (p, x) = Some e -> p = dir).
    { intros x e He. destruct (inv_treei _ H _ _ _ He) as (_ & _ & _ & _ & (i & Hi & Hp) & _). split.
      - exists k. split; [assumption|]. specialize (Hlt _ _ Hi). lia.
      - intros p e' He'. pose proof (treei_par _ _ _ _ _ H Hi He'). congruence. }
    assert (Hno : forall n i a, (∅ : gmap bytes (Z * attrs)) !! n = Some (i, a) -> exists e, d_treen (t_db t) !! (dir, n) = Some e /\ de_ino e = i /\ getattr (t_db t) i = Ok a).
    { intros n i a Em. rewrite lookup_empty in Em. discriminate. }
    destruct (from_key enc_ii (d_treei (t_db t)) (le64 dir)) as [|e0 l] eqn:El; injection E as <-.
    + split; auto.
      * intros n e He. rewrite Hrw. cbn. destruct (treen_child _ _ _ _ H He) as (Hti & _). exfalso.
        assert (Hx : de_ino e ∈ (∅ : gset Z)) by (apply Hs; eauto). set_solver.
      * intros x. rewrite Hrw. cbn. set_solver.
    + split; cbn [t_db t_refs t_rw default]; auto.
      * split; [exact H|exact (tinv_refs _ HT)|exact (tinv_hooks _ HT)].
      * intros n e He. destruct (treen_child _ _ _ _ H He) as (Hti & _). rewrite lookup_empty. split; [auto|]. intros _. apply Hs. eauto.
      * intros x Hx. apply Hs in Hx as (e & He). eapply Hold. eassumption.
  - destruct IH as [HT Hd Hg Hset Hm Hold]. pose proof (tinv_db _ HT) as H. pose proof (tinv_refs _ HT) as Hr.
    destruct (is_dir_u64 _ _ H Hd) as [Hu Hd0].
    destruct (emplace_spec t dir n a HT Hd Hroom) as
      [(err & _ & E')|[(Hv & e & oi & He & Hoi & Hty & E' & HT')|(Hv & Hty & k & R & Hk & Hfresh & Hd1 & HR & E' & HT')]];
      rewrite E' in E; [discriminate| |]; injection E as <- <-; cbn [t_db t_refs t_hooks t_rw] in *.
    + destruct (treen_child _ _ _ _ H He) as (Hti & Hname & i' & Hi' & Hpar).
      assert (Huniq : forall n' e', d_treen (t_db t) !! (dir, n') = Some e' -> de_ino e' = de_ino e -> n' = n).
      { intros n' e' He' Eq. destruct (treen_child _ _ _ _ H He') as (Hti' & Hname' & _). rewrite Eq in Hti'. congruence. }
      assert (Edef : forall x, x ∈ default ∅ (match t_rw t with Some s => Some (s ∖ {[de_ino e]}) | None => None end) <->
                x ∈ default ∅ (t_rw t) /\ x <> de_ino e).
      { intros x. destruct (t_rw t); cbn; set_solver. }
      split; cbn [t_db t_refs t_rw]; auto.
      * destruct Hd as (j & Hj & Hjd). destruct (decide (dir = de_ino e)) as [Heq|Hne].
        -- exfalso. destruct (treei_facts _ _ _ _ H Hti) as (_ & _ & _ & _ & _ & ? & _). lia.
        -- exists j. cbn. rewrite lookup_insert_ne by congruence. auto.
      * intros G. apply Hg. eapply gone_tables; [..|exact G]; reflexivity.
      * cbn. intros n' e' He'. rewrite Edef. destruct (decide (n' = n)) as [->|Hne].
        -- rewrite lookup_insert. assert (e' = e) by congruence. subst. split; [tauto|discriminate].
        -- rewrite lookup_insert_ne by congruence. rewrite (Hset _ _ He'). split; [tauto|]. intros Hn. split; [assumption|].
           intros Eq. apply Hne. eapply Huniq; eassumption.
      * intros n' i a'. destruct (decide (n' = n)) as [->|Hne].
        -- rewrite lookup_insert. intros Eq. injection Eq as <- <-. exists e. split_and!; auto. unfold getattr. cbn. rewrite lookup_insert. reflexivity.
        -- rewrite lookup_insert_ne by congruence. intros Em. destruct (Hm _ _ _ Em) as (e' & He' & <- & Ha). exists e'. split_and!; auto.
           unfold getattr. cbn. rewrite lookup_insert_ne; [exact Ha|]. intros Eq. apply Hne. eapply Huniq; [eassumption|congruence].
      * intros x Hx. apply Edef in Hx as [Hx _]. apply Hold. assumption.
    + set (d0 := detached_name (t_db t) dir n) in *. set (d1 := added dir n a k d0) in *.
      destruct (detached_name_spec (t_db t) dir n H) as (Hi0 & Hn0 & Hk0 & Hd0'). fold d0 in Hi0, Hn0, Hk0, Hd0'.
      assert (Hfresh0 : d_inodes d0 !! k = None).
      { unfold d0, detached_name. destruct (d_treen (t_db t) !! (dir, n)) as [e|]; [|assumption].
        destruct (d_inodes (t_db t) !! de_ino e) as [j|] eqn:Ej; [|assumption]. cbn. rewrite lookup_insert_ne; [assumption|congruence]. }
      assert (Ht0 : forall p x e, d_treei d0 !! (p, x) = Some e -> d_treei (t_db t) !! (p, x) = Some e).
      { unfold d0, detached_name. destruct (d_treen (t_db t) !! (dir, n)) as [e|]; [|auto].
        destruct (d_inodes (t_db t) !! de_ino e) as [j|] eqn:Ej; [|auto]. cbn. intros p x e' Hx. apply lookup_delete_Some in Hx as [_ Hx]. assumption. }
      assert (Hn0' : forall n' , n' <> n -> d_treen d0 !! (dir, n') = d_treen (t_db t) !! (dir, n')).
      { intros n' Hne. unfold d0, detached_name. destruct (d_treen (t_db t) !! (dir, n)) as [e|]; [|auto].
        destruct (d_inodes (t_db t) !! de_ino e) as [j|] eqn:Ej; [|auto]. cbn. rewrite lookup_delete_ne by congruence. reflexivity. }
      assert (Hga : forall x, x <> k -> getattr d1 x = getattr (t_db t) x).
      { intros x Hx. assert (G0 : getattr d0 x = getattr (t_db t) x).
        { unfold d0, detached_name. destruct (d_treen (t_db t) !! (dir, n)) as [e|]; [|auto].
          destruct (d_inodes (t_db t) !! de_ino e) as [j|] eqn:Ej; [|auto]. apply detach1_getattr. assumption. }
        rewrite <- G0. unfold getattr. cbn. rewrite lookup_insert_ne by congruence. reflexivity. }
      assert (Hg0 : ~ gone d0 (t_refs t) dir).
      { unfold d0, detached_name. destruct (d_treen (t_db t) !! (dir, n)) as [e|] eqn:He; [|assumption].
        destruct (treen_child _ _ _ _ H He) as (Hti & Hname & i' & Hi' & Hpar). rewrite Hi'. rewrite <- Hname.
        rewrite (gone_detach _ _ _ _ _ _ _ H Hr Hti Hi'). intros [|Hf]; [contradiction|].
        destruct (treei_facts _ _ _ _ H Hti) as (_ & _ & _ & _ & _ & ? & _ & Hcu).
        destruct (falls_gone_ge _ _ _ _ H Hcu Hf). lia. }
      assert (Hg1 : ~ gone d1 (t_refs t) dir) by (unfold d1; rewrite gone_added by assumption; assumption).
      assert (HdR : dir ∉ R) by (rewrite HR; assumption).
      assert (Hn1 : forall n' e', d_treen (cleaned R d1) !! (dir, n') = Some e' <->
                (n' = n /\ e' = Dirent 0 0 k n) \/ (n' <> n /\ d_treen (t_db t) !! (dir, n') = Some e')).
      { intros n' e'. rewrite cleaned_treen. unfold d1. cbn. destruct (decide (n' = n)) as [->|Hne].
        - rewrite lookup_insert. split; [intros [_ Eq]; injection Eq as <-; auto|]. intros [[_ ->]|[? _]]; [auto|contradiction].
        - rewrite lookup_insert_ne by congruence. rewrite Hn0' by assumption. split; [intros [_ ?]; auto|]. intros [[? _]|[_ ?]]; [contradiction|auto]. }
      assert (Hchild : forall n' e', d_treen (t_db t) !! (dir, n') = Some e' -> n' <> n -> de_ino e' ∉ R).
      { intros n' e' He' Hne. rewrite HR. intros G.
        assert (He1 : d_treen d1 !! (dir, n') = Some e'). { unfold d1. cbn. rewrite lookup_insert_ne by congruence. rewrite Hn0' by assumption. assumption. }
        destruct (treen_child _ _ _ _ Hd1 He1) as (Hti1 & _ & i1 & Hi1 & Hp1).
        inversion G as [x Hx _|q x f Hq Hf _]; subst.
        - destruct (inv_orphan _ Hd1 _ Hx) as (j & Hj & Hj0). assert (j = i1) by congruence. subst. destruct (treei_facts _ _ _ _ Hd1 Hti1) as (_ & _ & _ & _ & ? & _). congruence.
        - pose proof (treei_par _ _ _ _ _ Hd1 Hi1 Hf). subst q. contradiction. }
      assert (HkS : k ∉ default ∅ (t_rw t)).
      { intros Hx. destruct (Hold _ Hx) as [(k' & Hk' & ?) _]. rewrite Hk in Hk'. injection Hk' as <-. lia. }
      split; cbn [t_db t_refs t_rw]; auto.
      * destruct (Hd0' _ Hd) as (j & Hj & Hjd). exists (unpar_set R j). split; [|unfold unpar_set; destruct (decide _); assumption].
        apply cleaned_inodes. split; [assumption|]. exists j. split; [|reflexivity]. cbn. rewrite lookup_insert_ne by congruence. assumption.
      * apply gone_cleaned; assumption.
      * intros n' e' He'. apply Hn1 in He' as [[-> ->]|[Hne He']]; cbn [de_ino].
        -- rewrite lookup_insert. split; [intros; contradiction|discriminate].
        -- rewrite lookup_insert_ne by congruence. apply Hset. assumption.
      * intros n' i a'. destruct (decide (n' = n)) as [->|Hne].
        -- rewrite lookup_insert. intros Eq. injection Eq as <- <-. eexists. split; [apply Hn1; left; eauto|]. split; [reflexivity|].
           rewrite cleaned_getattr, decide_False.
           ++ unfold getattr. cbn. rewrite lookup_insert. reflexivity.
           ++ rewrite HR. unfold d1. rewrite gone_added by assumption. intros G. apply gone_has in G as [G _]; [|assumption].
              apply has_inode_iff in G as [? ?]. congruence.
        -- rewrite lookup_insert_ne by congruence. intros Em. destruct (Hm _ _ _ Em) as (e' & He' & <- & Ha).
           exists e'. split; [apply Hn1; right; auto|]. split; [reflexivity|].
           rewrite cleaned_getattr, decide_False by (eapply Hchild; eassumption). rewrite Hga; [assumption|].
           intros Eq. apply getattr_Ok in Ha as (j & Hj & _). congruence.
      * intros x Hx. destruct (Hold _ Hx) as [(k' & Hk' & Hlt) Hp]. rewrite Hk in Hk'. injection Hk' as <-. split.
        -- exists (k + 1). split; [reflexivity|lia].
        -- intros p e He. apply cleaned_treei in He as [_ He]. unfold d1 in He. cbn in He.
           apply lookup_insert_Some in He as [[Eq _]|[_ He]]; [injection Eq as <- <-; reflexivity|]. eapply Hp. eauto.
  - destruct IH as [HT Hd Hg Hset Hm Hold].
    destruct (emplace_spec t dir n a HT Hd Hroom) as
      [(err & _ & E')|[(Hv & e & oi & He & Hoi & Hty & E' & HT')|(Hv & Hty & k & R & Hk & Hfresh & Hd1 & HR & E' & HT')]];
      rewrite E' in E; try discriminate. injection E as _ <-. split; auto.
  - destruct IH as [HT Hd Hg Hset Hm Hold]. pose proof (tinv_db _ HT) as H.
    assert (HT' : TInv t1).
    { destruct (step_inv t (OFlags x s c) HT I) as [(r2 & t2 & E2 & HT2)|(_ & x' & n' & Eq & _)]; [|discriminate]. cbn in E2. rewrite E2 in E. injection E as _ <-. assumption. }
    unfold update_flags in E. destruct (d_inodes (t_db t) !! x) as [i|] eqn:Ei; [|injection E as _ <-; split; auto].
    injection E as _ <-. split; cbn [with_db t_db t_refs t_rw]; auto.
    + destruct Hd as (j & Hj & Hjd). unfold is_dir. cbn. destruct (decide (dir = x)) as [->|Hne].
      * rewrite lookup_insert. eexists. split; [reflexivity|]. cbn. congruence.
      * rewrite lookup_insert_ne by congruence. eauto.
    + intros G. apply Hg. eapply gone_tables; [..|exact G]; reflexivity.
    + intros n i' a Em. destruct (Hm _ _ _ Em) as (e & He & Hei & Ha). exists e. split_and!; auto. rewrite <- Ha. unfold getattr. cbn.
      destruct (decide (i' = x)) as [->|Hne]; [rewrite lookup_insert, Ei; reflexivity|rewrite lookup_insert_ne by congruence; reflexivity].
  - destruct IH as [HT Hd Hg Hset Hm Hold]. pose proof (tinv_db _ HT) as H.
    assert (HT' : TInv t1).
    { destruct (step_inv t (OLock x) HT I) as [(r2 & t2 & E2 & HT2)|(_ & x' & n' & Eq & _)]; [|discriminate]. cbn in E2. rewrite E2 in E. injection E as _ <-. assumption. }
    unfold lock, incref in E. destruct (t_refs t !! x) as [[k [|]]|] eqn:Ex; injection E as _ <-; split; cbn [t_db t_refs t_rw]; auto.
    + intros G. apply Hg. eapply gone_more; [|exact G]. intros y. unfold refcount at 1. destruct (decide (y = x)) as [->|Hne].
      * rewrite lookup_insert. pose proof (refcount_nonneg _ x (tinv_refs _ HT)) as Hnn. unfold refcount in *. rewrite Ex in *.
        rewrite w64_small by lia. lia.
      * rewrite lookup_insert_ne by congruence. auto.
    + intros G. apply Hg. eapply gone_more; [|exact G]. intros y. unfold refcount at 1. destruct (decide (y = x)) as [->|Hne].
      * rewrite lookup_insert. lia.
      * rewrite lookup_insert_ne by congruence. auto.
Qed.

Lemma session_finish dir t m : session dir t m -> exists res t',
  finish_dir_rewrite t = Done (res, t') /\ (res = Ok tt \/ res = Err EBADFD) /\ TInv t' /\ t_rw t' = None /\
  t_refs t' = t_refs t /\ t_hooks t' = t_hooks t /\
  (forall n c, lookup (t_db t') dir n = Ok c <-> exists a, m !! n = Some (c, a)) /\
  (forall q n, u64 q -> q <> dir -> lookup (t_db t') q n = lookup (t_db t) q n) /\
  (forall x, same_inode (t_db t) (t_db t') x) /\
  (forall n i a, m !! n = Some (i, a) -> getattr (t_db t') i = Ok a) /\
  (forall n c, lookup (t_db t) dir n = Ok c -> m !! n = None -> is_orphan (t_db t') c).
Proof.
  intros HS. destruct (session_inv _ _ _ HS) as [HT Hd Hg Hset Hm Hold]. pose proof (tinv_db _ HT) as H.
  destruct (is_dir_u64 _ _ H Hd) as [Hu Hd0].
  assert (Hgen : forall d', Inv d' ->
     (forall q n e, d_treen d' !! (q, n) = Some e <-> d_treen (t_db t) !! (q, n) = Some e /\ de_ino e ∉ default ∅ (t_rw t)) ->
     (forall x, same_inode (t_db t) d' x) -> (forall x, has_inode (t_db t) x -> x <> 1 -> x ∈ default ∅ (t_rw t) -> parent_of d' x = Ok 0) ->
  (forall n c, lookup d' dir n = Ok c <-> exists a, m !! n = Some (c, a)) /\
  (forall q n, u64 q -> q <> dir -> lookup d' q n = lookup (t_db t) q n) /\
  (forall x, same_inode (t_db t) d' x) /\
  (forall n i a, m !! n = Some (i, a) -> getattr d' i = Ok a) /\
  (forall n c, lookup (t_db t) dir n = Ok c -> m !! n = None -> is_orphan d' c)).
  { intros d' H' Hn Hsame Hpar. split_and!; auto.
    - intros n c. rewrite lookup_Ok by assumption. split.
      + intros (_ & e & He & <-). apply Hn in He as [He HeS]. destruct (m !! n) as [[i a]|] eqn:Em.
        * destruct (Hm _ _ _ Em) as (e' & He' & <- & _). exists a. congruence.
        * exfalso. apply HeS. apply (Hset _ _ He). assumption.
      + intros (a & Em). split; [assumption|]. destruct (Hm _ _ _ Em) as (e' & He' & <- & _). exists e'. split; [|reflexivity].
        apply Hn. split; [assumption|]. intros Hx. apply (Hset _ _ He') in Hx. congruence.
    - intros q n Hq Hne. apply lookup_ext; auto. apply option_eq. intros e. rewrite Hn. split; [tauto|]. intros He. split; [assumption|].
      intros Hx. destruct (treen_child _ _ _ _ H He) as (Hti & _). destruct (Hold _ Hx) as [_ Hp]. apply Hne. eapply Hp. eassumption.
    - intros n i a Em. destruct (Hm _ _ _ Em) as (e' & He' & _ & Ha). destruct (Hsame i) as [-> _]. assumption.
    - intros n c Hl Em. apply lookup_Ok in Hl as (_ & e & He & <-); auto. destruct (treen_child _ _ _ _ H He) as (Hti & _ & i & Hi & _).
      destruct (treei_facts _ _ _ _ H Hti) as (_ & Hh & _ & Hne1 & _). split; [assumption|]. apply Hpar; auto. apply (Hset _ _ He). assumption. }
  unfold finish_dir_rewrite. destruct (t_rw t) as [S|] eqn:Erw.
  - eexists _, _. split; [reflexivity|]. cbn [t_db t_refs t_hooks t_rw].
    set (l := merge_sort Z.le (elements S)). pose proof (fold_orphan_inv l _ H) as Hf.
    assert (Hl : forall x, x ∈ l <-> x ∈ S). { intros x. unfold l. rewrite merge_sort_Permutation. apply elem_of_elements. }
    split; [auto|]. split; [split; [exact Hf|exact (tinv_refs _ HT)|exact (tinv_hooks _ HT)]|]. do 3 (split; [reflexivity|]).
    apply Hgen.
    + assumption.
    + intros q n e. rewrite fold_orphan_treen by assumption. rewrite Hl. reflexivity.
    + intros x. clear - H. revert H. generalize (t_db t). clear. induction l as [|c l IH]; intros d H; cbn [fold_left]; [apply same_inode_refl|].
      eapply same_inode_trans; [|apply IH; apply make_orphan_inv; assumption].
      destruct (make_orphan_cases d c H) as [[Hc E]|[[Hc E]|[[Hc E]|(p & e' & i & He & Hi & E)]]]; rewrite E; cbn [snd]; try apply same_inode_refl.
      split_and!; [apply detach1_getattr; assumption|apply detach1_readlink; assumption|intros; apply detach1_test_flag; assumption].
    + intros x Hx Hx1. cbn [default id]. rewrite <- Hl. clear - H Hx Hx1.
      assert (Hor : forall l d, Inv d -> is_orphan d x -> is_orphan (fold_left (fun d ino => (make_orphan d ino).2) l d) x).
      { clear. induction l as [|c l IH]; intros d H Ho; cbn [fold_left]; [assumption|]. apply IH; [apply make_orphan_inv; assumption|].
        destruct (make_orphan_cases d c H) as [[Hc E]|[[Hc E]|[[Hc E]|(p & e' & i & He & Hi & E)]]]; rewrite E; cbn [snd]; try assumption.
        destruct Ho as [Ho1 Ho2]. split; [assumption|]. rewrite detach1_parent; [|assumption|apply (treei_facts _ _ _ _ H He)].
        destruct (decide (x = c)); [reflexivity|assumption]. }
      revert Hx H. generalize (t_db t). clear t. induction l as [|c l IH]; intros d Hx H Hin; [apply elem_of_nil in Hin; contradiction|].
      cbn [fold_left]. pose proof (make_orphan_inv d c H) as H1. apply elem_of_cons in Hin as [<-|Hin].
      * apply Hor; [assumption|]. split; [assumption|]. apply has_inode_iff in Hx as [j Hj].
        destruct (make_orphan_cases d x H) as [[Hc E]|[[Hc E]|[[Hc E]|(p & e' & i & He & Hi & E)]]]; rewrite E; cbn [snd]; try congruence.
        -- apply (is_orphan_iff _ _ H) in Hc. apply Hc.
        -- rewrite detach1_parent by assumption. rewrite decide_True by reflexivity. reflexivity.
      * apply IH; auto. apply has_inode_iff in Hx as [j Hj]. apply has_inode_iff.
        destruct (make_orphan_cases d c H) as [[Hc E]|[[Hc E]|[[Hc E]|(p & e' & i & He & Hi & E)]]]; rewrite E; cbn [snd]; eauto.
        cbn. destruct (decide (x = c)) as [->|]; [rewrite lookup_insert; eauto|rewrite lookup_insert_ne by congruence; eauto].
  - exists (Err EBADFD), t. split; [reflexivity|]. split; [auto|]. do 4 (split; [auto|]). apply Hgen; auto using same_inode_refl.
    + intros q n e. cbn. split; [intros; split; [assumption|set_solver]|tauto].
    + intros x _ _. cbn. set_solver.
Qed.
