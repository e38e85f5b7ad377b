(** unlink and clean_orphans in terms of the read operations; a checker for legal runs. *)
From Verif Require Export CacheDir.

(** [d'] is [d] without the inodes [rem]: nothing of them can be read, whatever was below a
    removed directory loses its parent, and everything else reads as before. *)
Record pruned (d d' : db) (rem : Z -> Prop) : Prop := {
  pr_gone : forall x, rem x -> getattr d' x = Err ENOENT /\ readlink d' x = Err ENOENT /\ parent_of d' x = Err ENOENT;
  pr_gone_dir : forall x n c, rem x -> lookup d' x n <> Ok c;
  pr_same : forall x, ~ rem x -> same_inode d d' x;
  pr_lookup : forall x n, u64 x -> ~ rem x -> lookup d' x n = lookup d x n;
  pr_parent : forall x p, ~ rem x -> parent_of d x = Ok p -> ~ rem p -> parent_of d' x = Ok p;
  pr_parent0 : forall x p, ~ rem x -> parent_of d x = Ok p -> rem p -> parent_of d' x = Ok 0 }.

Lemma cleaned_pruned d r R : Inv d -> Inv (cleaned R d) -> refs_ok r -> (forall x, x ∈ R <-> gone d r x) ->
  pruned d (cleaned R d) (fun x => x ∈ R).
Proof.
  intros H H' Hr HR.
  assert (H1 : 1 ∉ R).
  { rewrite HR. intros G. inversion G as [x Hx _|q x f _ Hf _]; subst; [apply (inv_root_orph _ H); assumption|].
    destruct (treei_facts _ _ _ _ H Hf) as (_ & _ & _ & ? & _). congruence. }
  split.
  - intros x Hx. rewrite cleaned_getattr, cleaned_readlink, !decide_True by assumption. split_and!; auto.
    unfold parent_of, ROOT_INO. destruct (Z.eqb_spec x 1) as [->|]; [contradiction|].
    pose proof (cleaned_getattr R d x) as Hg. rewrite decide_True in Hg by assumption. apply getattr_Err in Hg as [-> _]. reflexivity.
  - intros x n c Hx. apply cleaned_lookup_gone; auto. apply HR in Hx. exact (gone_u64 _ _ _ H Hx).
  - intros x Hx. unfold same_inode. rewrite cleaned_getattr, cleaned_readlink, !decide_False by assumption. split_and!; auto.
    intros f. rewrite cleaned_test_flag, decide_False by assumption. reflexivity.
  - intros x n Hu Hx. apply cleaned_lookup; auto.
  - intros x p Hx E Hp. rewrite (cleaned_parent _ _ _ p) by assumption. rewrite decide_False by tauto. reflexivity.
  - intros x p Hx E Hp. rewrite (cleaned_parent _ _ _ p) by assumption. rewrite decide_True; [reflexivity|]. split; [|assumption].
    intros ->. unfold parent_of in E. cbn in E. injection E as <-. contradiction.
Qed.
Lemma pruned_iff d d' P Q : (forall x, P x <-> Q x) -> pruned d d' P -> pruned d d' Q.
Proof.
  intros HPQ [A B C D E F]. split.
  - intros x Hx. apply A. apply HPQ. assumption.
  - intros x n c Hx. apply B. apply HPQ. assumption.
  - intros x Hx. apply C. rewrite HPQ. assumption.
  - intros x n Hu Hx. apply D; [assumption|]. rewrite HPQ. assumption.
  - intros x p Hx Ep Hp. apply E; [rewrite HPQ; assumption|assumption|rewrite HPQ; assumption].
  - intros x p Hx Ep Hp. eapply F; [rewrite HPQ; assumption|eassumption|apply HPQ; assumption].
Qed.

Lemma clean_api t : TInv t -> exists t', tx_clean t = Done t' /\ TInv t' /\ t_hooks t' = t_hooks t /\ t_rw t' = t_rw t /\
  let d := t_db t in let d' := t_db t' in let r := t_refs t in
  pruned d d' (reclaimable d r) /\
  (forall x, is_orphan d' x -> 0 < refcount r x) /\
  (forall x, is_orphan d' x <-> ~ reclaimable d r x /\ (is_orphan d x \/ exists p n, reclaimable d r p /\ lookup d p n = Ok x)) /\
  (forall x, refcount (t_refs t') x = refcount r x) /\
  (forall x, doomed (t_refs t') x = true <-> reclaimable d r x \/ doomed r x = true).
Proof.
  intros HT. destruct (tx_clean_spec t HT) as (R & HR & E & HT'). eexists. split; [exact E|]. split; [exact HT'|].
  do 2 (split; [reflexivity|]). cbn [t_db t_refs]. cbn zeta.
  pose proof (tinv_db _ HT) as H. pose proof (tinv_db _ HT') as H'. pose proof (tinv_refs _ HT) as Hr. cbn [t_db] in H'.
  assert (HR' : forall x, x ∈ R <-> reclaimable (t_db t) (t_refs t) x) by (intros x; rewrite HR, reclaimable_gone by assumption; reflexivity).
  split_and!.
  - eapply pruned_iff; [exact HR'|]. eapply cleaned_pruned; eassumption.
  - intros x Hx. apply is_orphan_iff in Hx; [|assumption]. eapply cleaned_no_gone; eassumption.
  - intros x. rewrite is_orphan_iff by assumption. rewrite cleaned_orphans. rewrite HR'. rewrite (is_orphan_iff _ _ H). split.
    + intros [Hx [Ho|(p & e & Hp & He)]]; (split; [assumption|]); [auto|right]. exists p, (de_name e). split; [apply HR'; assumption|].
      apply lookup_treei; [assumption|apply (treei_facts _ _ _ _ H He)|]. eauto.
    + intros [Hx [Ho|(p & n & Hp & Hl)]]; (split; [assumption|]); [auto|right]. apply HR' in Hp. exists p.
      apply lookup_treei in Hl as (e & He & _); [eauto|assumption|]. apply HR in Hp. exact (gone_u64 _ _ _ H Hp).
  - intros x. apply refcount_doom_all.
  - intros x. rewrite <- HR'. unfold doomed. rewrite doom_all_lookup. destruct (decide (x ∈ R)); tauto.
Qed.

Lemma unlink_api t p n c : TInv t -> u64 p -> lookup (t_db t) p n = Ok c -> exists t',
  unlink_name t p n = Done (Ok tt, t') /\ unlink_ino t c = Done (Ok tt, t') /\ TInv t' /\ t_hooks t' = t_hooks t /\ t_rw t' = t_rw t /\
  let d := t_db t in let d' := t_db t' in let r := t_refs t in
  exists removed : Z -> Prop,
    (forall x, removed x <-> reclaimable d r x \/ falls d r c x) /\
    lookup d' p n = Err ENOENT /\
    (0 < refcount r c -> is_orphan d' c) /\
    (forall x, removed x -> getattr d' x = Err ENOENT /\ readlink d' x = Err ENOENT) /\
    (forall x, ~ removed x -> same_inode d d' x) /\
    (forall q m, u64 q -> (q, m) <> (p, n) -> ~ removed q -> lookup d' q m = lookup d q m) /\
    (forall q m x, removed q -> lookup d' q m <> Ok x) /\
    (forall x q, x <> c -> ~ removed x -> parent_of d x = Ok q -> ~ removed q -> parent_of d' x = Ok q) /\
    (forall x q, x <> c -> ~ removed x -> parent_of d x = Ok q -> removed q -> parent_of d' x = Ok 0) /\
    (forall x, refcount (t_refs t') x = refcount r x) /\
    (forall x, doomed (t_refs t') x = true <-> removed x \/ doomed r x = true).
Proof.
  intros HT Hu Hl. pose proof (tinv_db _ HT) as H. pose proof (tinv_refs _ HT) as Hr.
  pose proof Hl as Hl'. apply lookup_Ok in Hl' as (Hp0 & e & He & Hec); [|assumption..]. subst c.
  destruct (treen_child _ _ _ _ H He) as (Hti & Hname & i & Hi & Hpar).
  destruct (treei_facts _ _ _ _ H Hti) as (_ & _ & _ & Hc1 & _ & _ & _ & Hcu).
  destruct (unlink_ino_spec t (de_ino e) HT) as [(? & _)|[(? & _)|(d1 & Hd1 & Hi1 & R & HR & E & HT')]]; [contradiction|congruence|].
  destruct Hd1 as [[Ho _]|(p' & e' & i' & He' & Hi' & Ed1)].
  { exfalso. destruct (inv_orphan _ H _ Ho) as (j & Hj & Hj0). congruence. }
  assert (p' = p) as -> by (pose proof (treei_par _ _ _ _ _ H Hi He'); congruence).
  assert (e' = e) by congruence. assert (i' = i) by congruence. subst e' i'. rewrite Hname in Ed1.
  eexists. split; [unfold unlink_name; rewrite He; exact E|]. split; [exact E|]. split; [exact HT'|].
  do 2 (split; [reflexivity|]). cbn zeta. cbn [t_db t_refs]. pose proof (tinv_db _ HT') as H'. cbn [t_db] in H'.
  pose proof (cleaned_pruned d1 (t_refs t) R Hi1 H' Hr HR) as [P1 P2 P3 P4 P5 P6].
  assert (HR' : forall x, x ∈ R <-> reclaimable (t_db t) (t_refs t) x \/ falls (t_db t) (t_refs t) (de_ino e) x).
  { intros x. rewrite HR, reclaimable_gone by assumption. rewrite Ed1, <- Hname. apply gone_detach; assumption. }
  assert (Hs1 : forall x, same_inode (t_db t) d1 x).
  { intros x. rewrite Ed1. split_and!; [apply detach1_getattr; assumption|apply detach1_readlink; assumption|intros; apply detach1_test_flag; assumption]. }
  assert (Hp1 : forall x q, x <> de_ino e -> parent_of (t_db t) x = Ok q -> parent_of d1 x = Ok q).
  { intros x q Hx Hq. rewrite Ed1, detach1_parent by assumption. rewrite decide_False by assumption. assumption. }
  exists (fun x => x ∈ R). split_and!.
  - exact HR'.
  - assert (Hv : valid_name n) by (apply (inv_treen _ H _ _ _ He)). rewrite lookup_spec; auto; [|apply valid_name_len; assumption].
    destruct (d_treen (cleaned R d1) !! (p, n)) as [f|] eqn:Ef; [|reflexivity]. apply cleaned_treen in Ef as [_ Ef]. rewrite Ed1 in Ef. cbn in Ef.
    rewrite lookup_delete in Ef. discriminate.
  - intros Hpos. split; [assumption|].
    assert (Hn : de_ino e ∉ R) by (rewrite HR; intros G; apply gone_ref in G; lia).
    assert (E0 : parent_of d1 (de_ino e) = Ok 0) by (rewrite Ed1, detach1_parent by assumption; rewrite decide_True by reflexivity; reflexivity).
    destruct (decide (0 ∈ R)) as [H0|H0]; [eapply P6; eassumption|eapply P5; eassumption].
  - intros x Hx. destruct (P1 x Hx) as (? & ? & _). auto.
  - intros x Hx. eapply same_inode_trans; [apply Hs1|apply P3; assumption].
  - intros q m Hq Hne Hx. rewrite P4 by assumption. rewrite Ed1. apply detach1_lookup; auto. rewrite <- Ed1. assumption.
  - intros q m x Hq. apply P2. assumption.
  - intros x q Hx Hn Hq Hnq. eapply P5; eauto.
  - intros x q Hx Hn Hq Hnq. eapply P6; eauto.
  - intros x. apply refcount_doom_all.
  - intros x. unfold doomed. rewrite doom_all_lookup. destruct (decide (x ∈ R)); tauto.
Qed.

(** ** checking that a concrete run is legal *)
Definition is_dirb (d : db) (x : Z) : bool :=
  match d_inodes d !! x with Some i => ftype (a_mode (i_attr i)) =? S_IFDIR | None => false end.
Definition roomb (d : db) : bool := match d_next d with Some k => k + 1 <? 2 ^ 64 | None => false end.
Definition legalb (t : tx) (o : op) : bool :=
  match o with
  | OEmplace p n a => is_dirb (t_db t) p && roomb (t_db t)
  | ORelease _ n => 0 <=? n
  | _ => true
  end.
Lemma is_dirb_ok d x : is_dirb d x = true -> is_dir d x.
Proof. unfold is_dirb, is_dir. destruct (d_inodes d !! x) as [i|]; [|discriminate]. intros E. apply Z.eqb_eq in E. eauto. Qed.
Lemma roomb_ok d : roomb d = true -> room d.
Proof. unfold roomb, room. destruct (d_next d) as [k|]; [|discriminate]. intros E. apply Z.ltb_lt in E. eauto. Qed.
Lemma legalb_ok t o : legalb t o = true -> legal t o.
Proof.
  destruct o; cbn; auto.
  - intros E. apply andb_prop in E as [E1 E2]. split; [apply is_dirb_ok; assumption|apply roomb_ok; assumption].
  - intros E. apply Z.leb_le. assumption.
Qed.
Definition legal_evb (w : world) (e : ev) : bool := match e with EOp o => legalb (w_tx w) o | _ => true end.
Fixpoint legal_runb (w : world) (l : list ev) : bool :=
  match l with
  | [] => true
  | e :: l => legal_evb w e && match wstep w e with Done w' => legal_runb w' l | _ => true end
  end.
Lemma legal_runb_ok l : forall w, legal_runb w l = true -> legal_run w l.
Proof.
  induction l as [|e l IH]; intros w E; [exact I|]. cbn in E. apply andb_prop in E as [E1 E2]. split.
  - destruct e; cbn; auto. apply legalb_ok. assumption.
  - intros w' Ew. rewrite Ew in E2. apply IH. assumption.
Qed.
