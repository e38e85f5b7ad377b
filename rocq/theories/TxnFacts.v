(** Facts about single events of the multi-thread model. *)
From Verif Require Export Txn.

(** ** hooks *)
Definition refhooks (hs : list thook) : list hook :=
  concat (map (fun h => match h with HRef h => [h] | HUser _ _ => [] end) hs).
Global Arguments refhooks : simpl never.
Definition rb_calls (hs : list thook) : list call :=
  concat (map (fun h => match h with HUser u _ => if u_rb u then [CRB (u_id u)] else [] | HRef _ => [] end) hs).
Lemma refhooks_app a b : refhooks (a ++ b) = refhooks a ++ refhooks b.
Proof. unfold refhooks. rewrite map_app, concat_app. reflexivity. Qed.
Lemma refhooks_HRef l : refhooks (map HRef l) = l.
Proof. induction l as [|h l IH]; [reflexivity|]. cbn [map]. rewrite <- IH at 2. reflexivity. Qed.
Lemma refhooks_rev hs : refhooks (rev hs) = rev (refhooks hs).
Proof.
  induction hs as [|h hs IH]; [reflexivity|]. cbn [rev]. rewrite refhooks_app, IH.
  rewrite (refhooks_app [h] hs : refhooks (h :: hs) = _). rewrite rev_app_distr. f_equal. destruct h; reflexivity.
Qed.
Lemma rollbacks_split hs : forall r, rollbacks r hs =
  (dlet r' := run_rollbacks r (refhooks hs) in Done (rb_calls hs, r')).
Proof.
  induction hs as [|[u ran|h] hs IH]; intros r; [reflexivity| |].
  - cbn [rollbacks]. rewrite IH. change (refhooks (HUser u ran :: hs)) with (refhooks hs).
    destruct (run_rollbacks r (refhooks hs)); reflexivity.
  - cbn [rollbacks]. change (refhooks (HRef h :: hs)) with (h :: refhooks hs). cbn [run_rollbacks].
    destruct (run_rollback r h) as [r1| | |]; try reflexivity. cbn [obind]. rewrite IH. reflexivity.
Qed.
Lemma abort_hooks_split r hs : abort_hooks r hs =
  (dlet r' := run_rollbacks r (rev (refhooks hs)) in Done (stage1_rollbacks hs ++ rb_calls (rev hs), r')).
Proof.
  unfold abort_hooks. rewrite rollbacks_split, refhooks_rev. destruct (run_rollbacks r (rev (refhooks hs))); reflexivity.
Qed.
Lemma stage1_refhooks hs : forall l hs' x, stage1 hs = (l, hs', x) -> refhooks hs' = refhooks hs.
Proof.
  induction hs as [|[u ran|h] hs IH]; intros l hs' x E; cbn [stage1] in E.
  - injection E as <- <- <-. reflexivity.
  - destruct (u_s1 u) as [[[]|err]|].
    + destruct (stage1 hs) as [[l1 hs1] x1] eqn:E1. injection E as <- <- <-. exact (IH _ _ _ eq_refl).
    + injection E as <- <- <-. reflexivity.
    + destruct (stage1 hs) as [[l1 hs1] x1] eqn:E1. injection E as <- <- <-. exact (IH _ _ _ eq_refl).
  - destruct (stage1 hs) as [[l1 hs1] x1] eqn:E1. injection E as <- <- <-.
    change (refhooks (HRef h :: hs1)) with (h :: refhooks hs1). rewrite (IH _ _ _ eq_refl). reflexivity.
Qed.
(** a commit leaves the references alone or rolls them back like an abort *)
Lemma commit_hooks_refs r hs x l r' : commit_hooks r hs = Done (x, l, r') ->
  (x = Ok tt /\ r' = r) \/ ((exists e, x = Err e) /\ run_rollbacks r (rev (refhooks hs)) = Done r').
Proof.
  unfold commit_hooks. destruct (stage1 hs) as [[l1 hs1] [[]|err]] eqn:E1; intros E.
  - injection E as <- _ <-. auto.
  - right. rewrite abort_hooks_split in E. rewrite (stage1_refhooks _ _ _ _ E1) in E.
    destruct (run_rollbacks r (rev (refhooks hs))); try discriminate. cbn in E. injection E as <- _ <-. eauto.
Qed.
Lemma abort_hooks_refs r hs l r' : abort_hooks r hs = Done (l, r') -> run_rollbacks r (rev (refhooks hs)) = Done r'.
Proof. rewrite abort_hooks_split. destruct (run_rollbacks r (rev (refhooks hs))); try discriminate. cbn. intros E. injection E as _ <-. reflexivity. Qed.

(** ** one operation *)
Definition new_hooks (o : op) (x : res unit) : list hook :=
  match o, x with
  | OLock y, Ok _ => [RbDecref y]
  | ORelease y n, Ok _ => if n =? 0 then [] else [RbIncref y n]
  | _, _ => []
  end.
Lemma cleaned_removed R d x : d_inodes d !! x <> None -> d_inodes (cleaned R d) !! x = None -> x ∈ R.
Proof.
  intros Hx Hn. destruct (decide (x ∈ R)) as [|Hx']; [assumption|]. exfalso.
  pose proof (cleaned_getattr R d x) as Hg. rewrite decide_False in Hg by assumption. unfold getattr in Hg.
  rewrite Hn in Hg. destruct (d_inodes d !! x); [discriminate|contradiction].
Qed.
Lemma detach1_inodes p c n i d x : d_inodes d !! c = Some i -> d_inodes (detach1 p c n i d) !! x = None -> d_inodes d !! x = None.
Proof.
  intros Hc. cbn. destruct (decide (x = c)) as [->|]; [rewrite lookup_insert; discriminate|rewrite lookup_insert_ne by congruence; auto].
Qed.
Lemma doomed_doom_all R r x : doomed (doom_all R r) x = true <-> x ∈ R \/ doomed r x = true.
Proof. unfold doomed. rewrite doom_all_lookup. destruct (decide (x ∈ R)); tauto. Qed.

Lemma step_more t o res t' : TInv t -> legal t o -> step t o = Done (res, t') ->
  (forall x, doomed (t_refs t) x = true -> doomed (t_refs t') x = true) /\
  (forall x, d_inodes (t_db t) !! x <> None -> d_inodes (t_db t') !! x = None -> doomed (t_refs t') x = true) /\
  (forall x, 0 < refcount (t_refs t) x -> doomed (t_refs t') x = doomed (t_refs t) x) /\
  (uses_refs t o = false -> t_refs t' = t_refs t) /\
  t_hooks t' = t_hooks t ++ new_hooks o res.
Proof.
  intros HT Hleg E. pose proof (tinv_db _ HT) as H.
  assert (Hcl : forall d1 R, (forall x, d_inodes (t_db t) !! x <> None -> d_inodes d1 !! x <> None) ->
     (forall x, x ∈ R -> refcount (t_refs t) x <= 0) ->
     (forall x, doomed (t_refs t) x = true -> doomed (doom_all R (t_refs t)) x = true) /\
     (forall x, d_inodes (t_db t) !! x <> None -> d_inodes (cleaned R d1) !! x = None -> doomed (doom_all R (t_refs t)) x = true) /\
     (forall x, 0 < refcount (t_refs t) x -> doomed (doom_all R (t_refs t)) x = doomed (t_refs t) x)).
  { intros d1 R Hsub HR. split_and!.
    - intros x Hx. apply doomed_doom_all. auto.
    - intros x Hx Hn. apply doomed_doom_all. left. eapply cleaned_removed; [|exact Hn]. auto.
    - intros x Hx. apply eq_true_iff_eq. rewrite doomed_doom_all. split; [intros [Hr|]; [specialize (HR _ Hr); lia|assumption]|auto]. }
  assert (Hsame : forall d', (forall x, d_inodes (t_db t) !! x <> None -> d_inodes d' !! x <> None) ->
     (forall x, doomed (t_refs t) x = true -> doomed (t_refs t) x = true) /\
     (forall x, d_inodes (t_db t) !! x <> None -> d_inodes d' !! x = None -> doomed (t_refs t) x = true) /\
     (forall x, 0 < refcount (t_refs t) x -> doomed (t_refs t) x = doomed (t_refs t) x)).
  { intros d' Hs. split_and!; auto. intros x Hx Hn. exfalso. exact (Hs _ Hx Hn). }
  assert (Hul : forall c res t', unlink_ino t c = Done (res, t') ->
     ((forall x, doomed (t_refs t) x = true -> doomed (t_refs t') x = true) /\
      (forall x, d_inodes (t_db t) !! x <> None -> d_inodes (t_db t') !! x = None -> doomed (t_refs t') x = true) /\
      (forall x, 0 < refcount (t_refs t) x -> doomed (t_refs t') x = doomed (t_refs t) x)) /\
     (match make_orphan (t_db t) c with (Ok _, _) => true | _ => false end = false -> t_refs t' = t_refs t) /\
     t_hooks t' = t_hooks t).
  { clear - HT H Hcl Hsame. intros c res t' E. split; [|split].
    - destruct (unlink_ino_spec t c HT) as [(_ & E')|[(_ & E')|(d1 & Hd1 & Hi1 & R & HR & E' & HT')]]; rewrite E' in E; injection E as _ <-;
        try (apply (Hsame (t_db t)); auto).
      cbn [t_refs t_db]. apply Hcl.
      + intros x Hx. destruct Hd1 as [[_ ->]|(p & e & i & He & Hi & ->)]; [assumption|]. intros Hn. apply Hx. eapply detach1_inodes; eassumption.
      + intros x Hx. apply HR in Hx. eapply gone_ref. eassumption.
    - unfold unlink_ino in E. destruct (make_orphan (t_db t) c) as [[?|?] d1]; [discriminate|]. injection E as _ <-. reflexivity.
    - destruct (unlink_ino_spec t c HT) as [(_ & E')|[(_ & E')|(d1 & Hd1 & Hi1 & R & HR & E' & HT')]]; rewrite E' in E; injection E as _ <-; reflexivity. }
  destruct o as [p n a|c|p c|p n| |y b|y s c|y| |y|y k]; cbn [step] in E.
  - destruct Hleg as [Hdir Hroom]. unfold drop_val in E. destruct (emplace t p n a) as [[r1 t1]| | |] eqn:Ee; try discriminate.
    cbn in E. injection E as <- <-. cbn [new_hooks]. 
    assert (Hnil : forall x : res unit, match x with Ok _ => ([] : list hook) | Err _ => [] end = []) by (intros [|]; reflexivity).
    destruct (emplace_spec t p n a HT Hdir Hroom) as
      [(err & _ & E')|[(Hv & e & oi & He & Hoi & Hty & E' & HT2)|(Hv & Hty & k & R & Hk & Hfresh & Hd1 & HR & E' & HT2)]];
      rewrite E' in Ee; injection Ee as <- <-; rewrite app_nil_r.
    + destruct (Hsame (t_db t)) as (A & B & C); [auto|]. split_and!; auto.
    + cbn [t_refs t_db t_hooks]. edestruct (Hsame (set_inodes (<[de_ino e := mkinode a p]> (d_inodes (t_db t))) (t_db t))) as (A & B & C).
      { intros x Hx. cbn. destruct (decide (x = de_ino e)) as [->|]; [rewrite lookup_insert; discriminate|rewrite lookup_insert_ne by congruence; assumption]. }
      split_and!; auto.
    + cbn [t_refs t_db t_hooks]. destruct (Hcl (added p n a k (detached_name (t_db t) p n)) R) as (A & B & C).
      { intros x Hx. cbn. destruct (decide (x = k)) as [->|]; [rewrite lookup_insert; discriminate|rewrite lookup_insert_ne by congruence].
        unfold detached_name. destruct (d_treen (t_db t) !! (p, n)) as [e|]; [|assumption]. destruct (d_inodes (t_db t) !! de_ino e) as [j|] eqn:Ej; [|assumption].
        intros Hn. apply Hx. eapply detach1_inodes; eassumption. }
      { intros x Hx. apply HR in Hx. eapply gone_ref. eassumption. }
      split_and!; auto. intros Hu. exfalso. cbn [uses_refs] in Hu. unfold valid_name in Hv. rewrite Hv in Hu.
      destruct (d_treen (t_db t) !! (p, n)) as [e|] eqn:He; [|discriminate].
      destruct (d_inodes (t_db t) !! de_ino e) as [oi|] eqn:Eo; [|destruct (treen_child _ _ _ _ H He) as (_ & _ & (? & ? & _)); congruence].
      specialize (Hty _ _ eq_refl Eo). destruct (Z.eqb_spec (ftype (a_mode (i_attr oi))) (ftype (a_mode a))); [contradiction|discriminate].
  - destruct (Hul _ _ _ E) as ((A & B & C) & D & F). cbn [new_hooks]. rewrite app_nil_r. split_and!; auto.
  - destruct (Hul _ _ _ E) as ((A & B & C) & D & F). cbn [new_hooks]. rewrite app_nil_r. split_and!; auto.
  - cbn [new_hooks]. rewrite app_nil_r. unfold unlink_name in E. cbn [uses_refs]. destruct (d_treen (t_db t) !! (p, n)) as [e|].
    + destruct (Hul _ _ _ E) as ((A & B & C) & D & F). split_and!; auto.
    + injection E as _ <-. destruct (Hsame (t_db t)) as (A & B & C); [auto|]. split_and!; auto.
  - destruct (tx_clean_spec t HT) as (R & HR & E' & _). rewrite E' in E. cbn in E. injection E as <- <-. cbn [new_hooks t_refs t_db t_hooks uses_refs].
    rewrite app_nil_r. destruct (Hcl (t_db t) R) as (A & B & C); auto.
    { intros x Hx. apply HR in Hx. eapply gone_ref. eassumption. }
    split_and!; auto. discriminate.
  - cbn [new_hooks]. rewrite app_nil_r. unfold writelink in E.
    destruct (d_inodes (t_db t) !! y) as [i|]; [destruct (negb _)|]; injection E as _ <-; cbn [with_db t_refs t_db t_hooks];
      try (destruct (Hsame (t_db t)) as (A & B & C); [auto|]; split_and!; auto; fail).
    edestruct Hsame as (A & B & C); [|split_and!; [exact A|exact B|exact C|reflexivity|reflexivity]].
    intros x Hx. cbn. destruct (decide (x = y)) as [->|]; [rewrite lookup_insert; discriminate|rewrite lookup_insert_ne by congruence; assumption].
  - cbn [new_hooks]. rewrite app_nil_r. unfold update_flags in E.
    destruct (d_inodes (t_db t) !! y) as [i|]; injection E as _ <-; cbn [with_db t_refs t_db t_hooks];
      try (destruct (Hsame (t_db t)) as (A & B & C); [auto|]; split_and!; auto; fail).
    edestruct Hsame as (A & B & C); [|split_and!; [exact A|exact B|exact C|reflexivity|reflexivity]].
    intros x Hx. cbn. destruct (decide (x = y)) as [->|]; [rewrite lookup_insert; discriminate|rewrite lookup_insert_ne by congruence; assumption].
  - cbn [new_hooks]. rewrite app_nil_r. unfold start_dir_rewrite in E. destruct (Hsame (t_db t)) as (A & B & C); [auto|].
    destruct (t_rw t); [injection E as _ <-; split_and!; auto|]. destruct (from_key _ _ _); injection E as _ <-; split_and!; auto.
  - cbn [new_hooks]. rewrite app_nil_r. unfold finish_dir_rewrite in E. destruct (t_rw t) as [s|]; injection E as _ <-; cbn [t_refs t_db t_hooks].
    + edestruct Hsame as (A & B & C); [|split_and!; [exact A|exact B|exact C|reflexivity|reflexivity]].
      intros x Hx Hn. destruct (d_inodes (t_db t) !! x) as [i|] eqn:Ei; [|contradiction].
      pose proof (fr_fold (<[x := (1, false)]> ∅) nobody nobody (merge_sort Z.le (elements s)) (t_db t) H) as [_ Hf].
      destruct (Hf _ _ Ei) as [(_ & _ & Hr)|(j & Hj & _)]; [|rewrite Hn in Hj; discriminate].
      unfold refcount in Hr. rewrite lookup_insert in Hr. lia.
    + destruct (Hsame (t_db t)) as (A & B & C); [auto|]. split_and!; auto.
  - unfold lock, incref in E. cbn [uses_refs]. destruct (t_refs t !! y) as [[k [|]]|] eqn:Ey; injection E as <- <-; cbn [new_hooks t_refs t_db t_hooks].
    + rewrite app_nil_r. destruct (Hsame (t_db t)) as (A & B & C); [auto|]. split_and!; auto.
    + assert (Hd : forall x, doomed (<[y := (w64 (k + 1), false)]> (t_refs t)) x = doomed (t_refs t) x).
      { intros x. unfold doomed. destruct (decide (x = y)) as [->|]; [rewrite lookup_insert, Ey; reflexivity|rewrite lookup_insert_ne by congruence; reflexivity]. }
      split_and!; [intros x Hx; rewrite Hd; assumption|intros x Hx Hn; contradiction|intros x _; apply Hd|discriminate|reflexivity].
    + assert (Hd : forall x, doomed (<[y := (1, false)]> (t_refs t)) x = doomed (t_refs t) x).
      { intros x. unfold doomed. destruct (decide (x = y)) as [->|]; [rewrite lookup_insert, Ey; reflexivity|rewrite lookup_insert_ne by congruence; reflexivity]. }
      split_and!; [intros x Hx; rewrite Hd; assumption|intros x Hx Hn; contradiction|intros x _; apply Hd|discriminate|reflexivity].
  - unfold release in E. cbn [uses_refs new_hooks]. destruct (Z.eqb_spec k 0) as [->|Hk]; cbn [negb].
    + injection E as <- <-. rewrite app_nil_r. destruct (Hsame (t_db t)) as (A & B & C); [auto|]. split_and!; auto.
    + destruct (decref_cases (t_refs t) y k) as [(Hle & b & Ey & Ed)|(_ & Ed)]; [cbn in Hleg; lia| |]; rewrite Ed in E; cbn in E; [|discriminate].
      injection E as <- <-. cbn [t_refs t_db t_hooks].
      assert (Hd : forall x, doomed (<[y := (refcount (t_refs t) y - k, b)]> (t_refs t)) x = doomed (t_refs t) x).
      { intros x. unfold doomed. destruct (decide (x = y)) as [->|]; [rewrite lookup_insert, Ey; reflexivity|rewrite lookup_insert_ne by congruence; reflexivity]. }
      split_and!; [intros x Hx; rewrite Hd; assumption|intros x Hx Hn; contradiction|intros x _; apply Hd|discriminate|reflexivity].
Qed.
