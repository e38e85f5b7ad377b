(** Property C76: a directory object of the local backend lists the directory it was opened on. *)
From Verif Require Import Prelude Codec CacheModel LocalDir.

(** The type an entry is reported with is the type part of its st_mode, if the operating system tells
    it at all: d_type is that part shifted (IFTODT of <dirent.h>). *)
Theorem C76_mode : forall t, dt_mode t = type_bits t.
Proof.
  intros t. unfold dt_mode, type_bits, DT_BLK, DT_CHR, DT_REG, DT_DIR, DT_FIFO, DT_LNK, DT_SOCK.
  repeat match goal with |- context [if ?x =? ?y then _ else _] => destruct (Z.eqb_spec x y) as [->|?] end; try reflexivity.
  rewrite bool_decide_eq_false_2; [reflexivity|]. set_solver.
Qed.
Print Assumptions C76_mode.
Theorem C76_mode_type : forall mode, ftype mode ∈ [S_IFIFO; S_IFCHR; S_IFDIR; S_IFBLK; S_IFREG; S_IFLNK; S_IFSOCK] -> dt_mode (Z.shiftr (ftype mode) 12) = ftype mode.
Proof. intros mode H. repeat (apply elem_of_cons in H as [->|H]; [reflexivity|]). inversion H. Qed.
Print Assumptions C76_mode_type.
Example C76_mode_sample : ftype (S_IFREG + 420) ∈ [S_IFIFO; S_IFCHR; S_IFDIR; S_IFBLK; S_IFREG; S_IFLNK; S_IFSOCK] /\ dt_mode 0 = 0 /\ dt_mode 14 = 0.
Proof. split; [apply (bool_decide_eq_true_1 _); vm_compute; reflexivity|split; reflexivity]. Qed.

(** The full claim: pointers are never seen, and nothing is undefined. *)
Definition dir_start (w : diow) (s : dirs_spec) : Prop := dw_objs w = ∅ /\ dw_st w !! 0 = None /\ s = mkP ∅ (dw_synced w).
Definition C76_full : Prop := forall w s ps, dir_start w s -> dir_legals w ps ->
  exists rs w' s', dir_run w ps = Done (rs, w') /\ spec_calls s ps = (rs, s') /\ dw_synced w' = p_synced s'.

(** streams that were open before ([base]) stay, and each open object has one of its own *)
Record dir_rel (base : gset Z) (w : diow) (s : dirs_spec) : Prop := {
  dl_sync : dw_synced w = p_synced s;
  dl_dom : forall o, dw_objs w !! o = None <-> p_objs s !! o = None;
  dl_open : forall o x, p_objs s !! o = Some (Some x) -> exists dp, dw_objs w !! o = Some dp /\ dw_st w !! dp = Some x /\ dp <> 0 /\ dp ∉ base;
  dl_closed : forall o, p_objs s !! o = Some None -> dw_objs w !! o = Some 0;
  dl_inj : forall o o' x x' dp, p_objs s !! o = Some (Some x) -> p_objs s !! o' = Some (Some x') -> dw_objs w !! o = Some dp -> dw_objs w !! o' = Some dp -> o = o';
  dl_base : base ⊆ dom (dw_st w);
  dl_all : forall dp, dp ∈ dom (dw_st w) -> dp ∈ base \/ exists o x, p_objs s !! o = Some (Some x) /\ dw_objs w !! o = Some dp;
  dl_null : dw_st w !! 0 = None }.
Lemma rel_live base w s o dp : dir_rel base w s -> dw_objs w !! o = Some dp -> p_objs s !! o <> Some None ->
  exists x, p_objs s !! o = Some (Some x) /\ dw_st w !! dp = Some x /\ dp <> 0 /\ dp ∉ base.
Proof.
  intros H Ho Hn. destruct (p_objs s !! o) as [[x|]|] eqn:Es; [|contradiction|apply (dl_dom _ _ _ H) in Es; congruence].
  destruct (dl_open _ _ _ H _ _ Es) as (dp' & Ho' & H1 & H2 & H3). assert (dp' = dp) by congruence. subst. eauto.
Qed.
(** closing the stream of an object, and what becomes of the object *)
Lemma rel_close base w s o dp x sy v : dir_rel base w s -> p_objs s !! o = Some (Some x) -> dw_objs w !! o = Some dp -> dw_synced w = sy ->
  match v with true => dir_rel base (mkD (delete dp (dw_st w)) (<[o := 0]> (dw_objs w)) sy) (mkP (<[o := None]> (p_objs s)) sy)
             | false => dir_rel base (mkD (delete dp (dw_st w)) (delete o (dw_objs w)) sy) (mkP (delete o (p_objs s)) sy) end.
Proof.
  intros H Hs Ho <-. destruct (dl_open _ _ _ H _ _ Hs) as (dp' & Ho' & Hst & Hnz & Hnb). assert (dp' = dp) as -> by congruence. destruct H as [H1 H2 H3 H4 H5 H6 H7 H8].
  assert (Hoth : forall o' x', o' <> o -> p_objs s !! o' = Some (Some x') -> exists dq, dw_objs w !! o' = Some dq /\ dw_st w !! dq = Some x' /\ dq <> 0 /\ dq ∉ base /\ dq <> dp).
  { intros o' x' Hne E. destruct (H3 _ _ E) as (dq & E1 & E2 & E3 & E4). exists dq. split_and!; auto. intros ->. apply Hne. eapply H5; eauto. }
  assert (Hb : base ⊆ dom (delete dp (dw_st w))) by (rewrite dom_delete_L; set_solver).
  assert (Hall : forall dq, dq ∈ dom (delete dp (dw_st w)) -> dq ∈ base \/ exists o' x', o' <> o /\ p_objs s !! o' = Some (Some x') /\ dw_objs w !! o' = Some dq).
  { intros dq Hq. rewrite dom_delete_L in Hq. apply elem_of_difference in Hq as [Hq Hd]. destruct (H7 _ Hq) as [?|(o' & x' & E1 & E2)]; [auto|]. right. exists o', x'. split; [|auto]. intros ->. apply Hd, elem_of_singleton. congruence. }
  assert (Hz : delete dp (dw_st w) !! 0 = None) by (rewrite lookup_delete_ne by congruence; exact H8).
  destruct v; constructor; cbn; auto.
  - intros o'. destruct (decide (o = o')) as [<-|]; [rewrite !lookup_insert; split; discriminate|rewrite !lookup_insert_ne by assumption; apply H2].
  - intros o' x'. destruct (decide (o = o')) as [<-|Hne]; [rewrite lookup_insert; discriminate|]. rewrite !lookup_insert_ne by assumption. intros E. destruct (Hoth o' x' ltac:(congruence) E) as (dq & ? & ? & ? & ? & ?). exists dq. rewrite lookup_delete_ne by congruence. auto.
  - intros o'. destruct (decide (o = o')) as [<-|Hne]; [rewrite !lookup_insert; reflexivity|]. rewrite !lookup_insert_ne by assumption. apply H4.
  - intros o1 o2 x1 x2 dq. destruct (decide (o = o1)) as [<-|N1]; [rewrite lookup_insert; discriminate|]. destruct (decide (o = o2)) as [<-|N2]; [rewrite lookup_insert; discriminate|]. rewrite !lookup_insert_ne by assumption. apply H5.
  - intros dq Hq. destruct (Hall _ Hq) as [?|(o' & x' & N & E1 & E2)]; [auto|]. right. exists o', x'. rewrite !lookup_insert_ne by congruence. auto.
  - intros o'. destruct (decide (o = o')) as [<-|]; [rewrite !lookup_delete; split; auto|rewrite !lookup_delete_ne by assumption; apply H2].
  - intros o' x'. destruct (decide (o = o')) as [<-|Hne]; [rewrite lookup_delete; discriminate|]. rewrite !lookup_delete_ne by assumption. intros E. destruct (Hoth o' x' ltac:(congruence) E) as (dq & ? & ? & ? & ? & ?). exists dq. rewrite lookup_delete_ne by congruence. auto.
  - intros o'. destruct (decide (o = o')) as [<-|Hne]; [rewrite lookup_delete; discriminate|]. rewrite !lookup_delete_ne by assumption. apply H4.
  - intros o1 o2 x1 x2 dq. destruct (decide (o = o1)) as [<-|N1]; [rewrite lookup_delete; discriminate|]. destruct (decide (o = o2)) as [<-|N2]; [rewrite (lookup_delete (p_objs s)); discriminate|]. rewrite !lookup_delete_ne by assumption. apply H5.
  - intros dq Hq. destruct (Hall _ Hq) as [?|(o' & x' & N & E1 & E2)]; [auto|]. right. exists o', x'. rewrite !lookup_delete_ne by congruence. auto.
Qed.
Lemma rel_read base w s o dp dir e l : dir_rel base w s -> p_objs s !! o = Some (Some (dir, e :: l)) -> dw_objs w !! o = Some dp ->
  dir_rel base (mkD (<[dp := (dir, l)]> (dw_st w)) (dw_objs w) (dw_synced w)) (mkP (<[o := Some (dir, l)]> (p_objs s)) (p_synced s)).
Proof.
  intros H Hs Ho. destruct (dl_open _ _ _ H _ _ Hs) as (dp' & Ho' & Hst & Hnz & Hnb). assert (dp' = dp) as -> by congruence. destruct H as [H1 H2 H3 H4 H5 H6 H7 H8].
  assert (Hp : forall o' x', <[o := Some (dir, l)]> (p_objs s) !! o' = Some (Some x') -> exists x0, p_objs s !! o' = Some (Some x0)).
  { intros o' x'. destruct (decide (o = o')) as [<-|Hne]; [eauto|rewrite lookup_insert_ne by assumption; eauto]. }
  constructor; cbn; auto.
  - intros o'. destruct (decide (o = o')) as [<-|]; [rewrite lookup_insert, Ho; split; discriminate|rewrite lookup_insert_ne by assumption; apply H2].
  - intros o' x'. destruct (decide (o = o')) as [<-|Hne]; [rewrite lookup_insert; intros [= <-]; exists dp; rewrite lookup_insert; auto|]. rewrite lookup_insert_ne by assumption. intros E. destruct (H3 _ _ E) as (dq & E1 & E2 & E3 & E4). exists dq. split_and!; auto. rewrite lookup_insert_ne; [exact E2|]. intros <-. apply Hne. eapply H5; eauto.
  - intros o'. destruct (decide (o = o')) as [<-|Hne]; [rewrite lookup_insert; discriminate|]. rewrite lookup_insert_ne by assumption. apply H4.
  - intros o1 o2 x1 x2 dq E1 E2 F1 F2. apply Hp in E1 as [y1 E1]. apply Hp in E2 as [y2 E2]. eapply H5; eauto.
  - rewrite dom_insert_L. set_solver.
  - intros dq Hq. rewrite dom_insert_L in Hq. assert (Hq' : dq ∈ dom (dw_st w)) by (apply elem_of_union in Hq as [Hq%elem_of_singleton|Hq]; [subst; apply elem_of_dom; eauto|exact Hq]).
    destruct (H7 _ Hq') as [?|(o' & x' & E1 & E2)]; [auto|]. right. destruct (decide (o = o')) as [<-|Hne]; [exists o, (dir, l); rewrite lookup_insert; auto|exists o', x'; rewrite lookup_insert_ne by assumption; auto].
  - rewrite lookup_insert_ne by assumption. exact H8.
Qed.
Lemma rel_else base w s dir f : dir_rel base w s -> dir_rel base (mkD (changed_by dir f <$> dw_st w) (dw_objs w) (dw_synced w)) (mkP (option_map (changed_by dir f) <$> p_objs s) (p_synced s)).
Proof.
  intros [H1 H2 H3 H4 H5 H6 H7 H8].
  assert (Hp : forall o x', (option_map (changed_by dir f) <$> p_objs s : gmap Z (option (Z * list dent))) !! o = Some (Some x') -> exists x0, p_objs s !! o = Some (Some x0) /\ x' = changed_by dir f x0).
  { intros o x'. rewrite lookup_fmap. destruct (p_objs s !! o) as [[x0|]|]; cbn; intros E; inversion E; eauto. }
  constructor; cbn; auto.
  - intros o. rewrite lookup_fmap, fmap_None. apply H2.
  - intros o x' E. apply Hp in E as (x0 & E & ->). destruct (H3 _ _ E) as (dq & E1 & E2 & E3 & E4). exists dq. split_and!; auto. rewrite lookup_fmap, E2. reflexivity.
  - intros o. rewrite lookup_fmap. destruct (p_objs s !! o) as [[x0|]|] eqn:E; cbn; intros E'; inversion E'. auto.
  - intros o1 o2 x1 x2 dq E1 E2 F1 F2. apply Hp in E1 as (y1 & E1 & _). apply Hp in E2 as (y2 & E2 & _). eapply H5; eauto.
  - rewrite dom_fmap_L. exact H6.
  - intros dq Hq. rewrite dom_fmap_L in Hq. destruct (H7 _ Hq) as [?|(o' & x' & E1 & E2)]; [auto|]. right. exists o', (changed_by dir f x'). rewrite lookup_fmap, E1. auto.
  - rewrite lookup_fmap, H8. reflexivity.
Qed.
Lemma rel_open base w s o dp dir l : dir_rel base w s -> dw_objs w !! o = None -> dp <> 0 -> dw_st w !! dp = None ->
  dir_rel base (mkD (<[dp := (dir, l)]> (dw_st w)) (<[o := dp]> (dw_objs w)) (dw_synced w)) (mkP (<[o := Some (dir, l)]> (p_objs s)) (p_synced s)).
Proof.
  intros [H1 H2 H3 H4 H5 H6 H7 H8] Hn Hp Hst.
  assert (Hs : p_objs s !! o = None) by (apply H2; exact Hn).
  assert (Hb : dp ∉ base) by (intros Hb; apply H6, elem_of_dom in Hb as [? Hb]; congruence).
  assert (Hold : forall o' x', p_objs s !! o' = Some (Some x') -> dw_objs w !! o' <> Some dp).
  { intros o' x' E E'. destruct (H3 _ _ E) as (dq & E1 & E2 & _). congruence. }
  constructor; cbn; auto.
  - intros o'. destruct (decide (o = o')) as [<-|]; [rewrite !lookup_insert; split; discriminate|rewrite !lookup_insert_ne by assumption; apply H2].
  - intros o' x'. destruct (decide (o = o')) as [<-|Hne].
    + rewrite !lookup_insert. intros [= <-]. exists dp. rewrite lookup_insert. auto.
    + rewrite !lookup_insert_ne by assumption. intros E. destruct (H3 _ _ E) as (dq & E1 & E2 & E3 & E4). exists dq. split_and!; auto. rewrite lookup_insert_ne; [exact E2|congruence].
  - intros o'. destruct (decide (o = o')) as [<-|Hne]; [rewrite lookup_insert; discriminate|rewrite !lookup_insert_ne by assumption; apply H4].
  - intros o1 o2 x1 x2 dq. destruct (decide (o = o1)) as [<-|Hn1], (decide (o = o2)) as [<-|Hn2]; rewrite ?lookup_insert; rewrite ?lookup_insert_ne by assumption; auto.
    + intros _ E [= <-] E2. destruct (Hold _ _ E E2).
    + intros E _ E2 [= <-]. destruct (Hold _ _ E E2).
    + apply H5.
  - rewrite dom_insert_L. set_solver.
  - intros dq Hq. rewrite dom_insert_L in Hq. apply elem_of_union in Hq as [Hq%elem_of_singleton|Hq]; [subst; right; exists o, (dir, l); rewrite !lookup_insert; auto|].
    destruct (H7 _ Hq) as [?|(o' & x' & E1 & E2)]; [auto|]. right. exists o', x'. rewrite !lookup_insert_ne by congruence. auto.
  - rewrite lookup_insert_ne by assumption. exact H8.
Qed.
Lemma dir_call_rel base w s p : dir_rel base w s -> dir_legal w p -> (forall o, p <> DClose o false) -> ~ uses_closed s p ->
  (forall o e, p = DRead o (Some e) -> e = 0) ->
  exists w', dir_call w p = Done (fst (spec_call s p), w') /\ dir_rel base w' (snd (spec_call s p)).
Proof.
  intros H Hl Hc Hu Hre. destruct p as [o dp dir l|o k|o k|o ok|o ok|dir f]; cbn [dir_call spec_call dir_legal uses_closed] in *.
  - destruct Hl as (Hn & Hp & Hst). eexists. split; [reflexivity|]. apply rel_open; assumption.
  - destruct Hl as [dp Ho]. rewrite Ho. destruct (rel_live _ _ _ _ _ H Ho Hu) as ([dir l] & Es & Est & _). unfold dir_read. rewrite Est, Es. rewrite <- ?C76_mode.
    destruct k as [e|]; [assert (e = 0) as -> by (eapply Hre; reflexivity); eexists; split; [reflexivity|exact H]|]. destruct l as [|e l]; [eexists; split; [reflexivity|exact H]|]. rewrite <- C76_mode. eexists. split; [reflexivity|]. eapply rel_read; eassumption.
  - destruct Hl as [dp Ho]. rewrite Ho. destruct (rel_live _ _ _ _ _ H Ho Hu) as ([dir l] & Es & Est & _). unfold dir_sync. rewrite Est, Es.
    destruct k as [e|]; eexists; (split; [reflexivity|]); [exact H|]. destruct H as [H1 H2 H3 H4 H5 H6 H7 H8]. constructor; cbn; auto. rewrite H1. reflexivity.
  - destruct Hl as [dp Ho]. rewrite Ho. destruct (rel_live _ _ _ _ _ H Ho Hu) as (x & Es & Est & Hnz & Hnb). unfold dir_close. rewrite Est. destruct ok; [|destruct (Hc o); reflexivity].
    eexists. split; [reflexivity|]. cbn. rewrite <- (dl_sync _ _ _ H). apply (rel_close base w s o dp x _ true H Es Ho eq_refl).
  - destruct Hl as [dp Ho]. rewrite Ho. destruct (p_objs s !! o) as [[x|]|] eqn:Es; [| |apply (dl_dom _ _ _ H) in Es; congruence].
    + destruct (dl_open _ _ _ H _ _ Es) as (dp' & Ho' & Est & Hnz & _). assert (dp' = dp) as -> by congruence. apply Z.eqb_neq in Hnz. rewrite Hnz. unfold dir_close. rewrite Est. exists (mkD (delete dp (dw_st w)) (delete o (dw_objs w)) (dw_synced w)). split; [destruct ok; cbn; rewrite ?delete_insert_delete; reflexivity|]. cbn. rewrite <- (dl_sync _ _ _ H). apply (rel_close base w s o dp x _ false H Es Ho eq_refl).
    + assert (dp = 0) as -> by (pose proof (dl_closed _ _ _ H _ Es); congruence). cbn [Z.eqb obind]. eexists. split; [reflexivity|]. cbn. destruct H as [H1 H2 H3 H4 H5 H6 H7 H8].
      assert (Hk : forall o' x', p_objs s !! o' = Some (Some x') -> o' <> o) by (intros o' x' E ->; congruence).
      constructor; cbn; auto.
      * intros o'. destruct (decide (o = o')) as [<-|]; [rewrite !lookup_delete; split; auto|rewrite !lookup_delete_ne by assumption; apply H2].
      * intros o' x' E. apply lookup_delete_Some in E as [Hne E]. rewrite lookup_delete_ne by assumption. auto.
      * intros o' E. apply lookup_delete_Some in E as [Hne E]. rewrite lookup_delete_ne by assumption. auto.
      * intros o1 o2 x1 x2 dq E1 E2 F1 F2. apply lookup_delete_Some in E1 as [_ E1]. apply lookup_delete_Some in E2 as [_ E2]. apply lookup_delete_Some in F1 as [_ F1]. apply lookup_delete_Some in F2 as [_ F2]. eapply H5; eauto.
      * intros dq Hq. destruct (H7 _ Hq) as [?|(o' & x' & E1 & E2)]; [auto|]. right. exists o', x'. rewrite !lookup_delete_ne by (intros ->; eapply Hk; eauto). auto.
  - eexists. split; [reflexivity|]. apply rel_else. exact H.
Qed.
(** no call of closedir() reports an error; no error ends a listing *)
Definition close_works (ps : list dop) : Prop := forall o, DClose o false ∉ ps.
Definition read_works (ps : list dop) : Prop := forall o e, DRead o (Some e) ∈ ps -> e = 0.
Lemma dir_run_rel base ps : forall w s, dir_rel base w s -> dir_legals w ps -> close_works ps -> read_works ps -> never_closed s ps ->
  exists w', dir_run w ps = Done (fst (spec_calls s ps), w') /\ dir_rel base w' (snd (spec_calls s ps)).
Proof.
  induction ps as [|p ps IH]; intros w s H Hl Ht Hre Hn; cbn [dir_run spec_calls]; [eauto|]. destruct Hl as [Hp Hl], Hn as [Hu Hn].
  destruct (dir_call_rel base w s p H Hp) as (w1 & E1 & H1); [intros o ->; apply (Ht o); left|exact Hu|intros o e ->; apply (Hre o); left|]. rewrite E1 in *. cbn [obind].
  destruct (IH _ _ H1 Hl) as (w2 & E2 & H2); [intros o Hin; apply (Ht o); right; exact Hin|intros o e Hin; apply (Hre o); right; exact Hin|exact Hn|]. rewrite E2. cbn [obind fst snd]. eauto.
Qed.
Lemma dir_rel_start w s : dir_start w s -> dir_rel (dom (dw_st w)) w s.
Proof. intros (Ho & Hz & ->). constructor; cbn; auto; try (intros; rewrite ?Ho, ?lookup_empty in *; try split; discriminate || auto). Qed.

(** ** True as long as nothing is called on an object after its closedir(), closedir() reports no
    error and no error ends a listing.  Streams: those that were open before and one per object
    that is still open. *)
Theorem C76_partial : forall w s ps, dir_start w s -> dir_legals w ps -> close_works ps -> read_works ps -> never_closed s ps ->
  exists rs w' s', dir_run w ps = Done (rs, w') /\ spec_calls s ps = (rs, s') /\ dw_synced w' = p_synced s' /\
    forall dp, dp ∈ dom (dw_st w') <-> dp ∈ dom (dw_st w) \/ exists o x, p_objs s' !! o = Some (Some x) /\ dw_objs w' !! o = Some dp.
Proof.
  intros w s ps H Hl Hc Hre Hn. destruct (dir_run_rel _ ps _ _ (dir_rel_start _ _ H) Hl Hc Hre Hn) as (w' & E & H'). exists (fst (spec_calls s ps)), w', (snd (spec_calls s ps)).
  split; [exact E|]. split; [destruct (spec_calls s ps); reflexivity|]. split; [apply (dl_sync _ _ _ H')|]. intros dp. split; [apply (dl_all _ _ _ H')|].
  intros [Hb|(o & x & E1 & E2)]; [apply (dl_base _ _ _ H'); exact Hb|]. destruct (dl_open _ _ _ H' _ _ E1) as (dq & F1 & F2 & _). apply elem_of_dom. exists x. congruence.
Qed.
Print Assumptions C76_partial.

(** Exactly then nothing is undefined (while closedir() reports no error): a single call on a closed
    object uses the null pointer. *)
Lemma dir_call_rel_any base w s p : dir_rel base w s -> dir_legal w p -> (forall o, p <> DClose o false) -> ~ uses_closed s p ->
  exists r w', dir_call w p = Done (r, w') /\ dir_rel base w' (snd (spec_call s p)).
Proof.
  intros H Hl Hc Hu.
  assert (Hcase : (exists o e, p = DRead o (Some e)) \/ forall o e, p = DRead o (Some e) -> e = 0) by (destruct p as [| ? [?|]| | | |]; first [left; eauto; fail|right; intros; discriminate]).
  destruct Hcase as [(o & e & ->)|Hre]; [|destruct (dir_call_rel base w s p H Hl Hc Hu Hre) as (w' & E & H'); eauto].
  cbn [dir_call spec_call snd dir_legal uses_closed] in *. destruct Hl as [dp Ho]. rewrite Ho. destruct (rel_live _ _ _ _ _ H Ho Hu) as ([dir l] & Es & Est & _). unfold dir_read. rewrite Est. eauto.
Qed.
Lemma uses_closed_crash base w s p : dir_rel base w s -> uses_closed s p -> dir_call w p = Crash.
Proof. intros H Hu. destruct p as [|o k|o k|o ok| |]; cbn [uses_closed] in Hu; try contradiction; cbn [dir_call]; rewrite (dl_closed _ _ _ H _ Hu); unfold dir_read, dir_sync, dir_close; rewrite (dl_null _ _ _ H); reflexivity. Qed.
Lemma uses_closed_dec s p : uses_closed s p \/ ~ uses_closed s p.
Proof. destruct p as [|o k|o k|o ok| |]; cbn; auto; destruct (p_objs s !! o) as [[?|]|]; auto; right; discriminate. Qed.
Lemma dir_run_iff base ps : forall w s, dir_rel base w s -> dir_legals w ps -> close_works ps ->
  (never_closed s ps /\ exists rs w', dir_run w ps = Done (rs, w')) \/ (~ never_closed s ps /\ dir_run w ps = Crash).
Proof.
  induction ps as [|p ps IH]; intros w s H Hl Hc; cbn [never_closed dir_run]; [left; eauto|]. destruct Hl as [Hp Hl]. destruct (uses_closed_dec s p) as [Hu|Hu].
  - right. split; [tauto|]. rewrite (uses_closed_crash _ _ _ _ H Hu). reflexivity.
  - destruct (dir_call_rel_any base w s p H Hp) as (r & w1 & E1 & H1); [intros o ->; apply (Hc o); left|exact Hu|]. rewrite E1 in *. cbn [obind].
    destruct (IH _ _ H1 Hl) as [[Hn (rs & w2 & E2)]|[Hn E2]]; [intros o Hin; apply (Hc o); right; exact Hin| |]; rewrite E2; cbn [obind]; [left; eauto|right; tauto].
Qed.
Theorem C76_exact : forall w s ps, dir_start w s -> dir_legals w ps -> close_works ps ->
  (never_closed s ps <-> exists rs w', dir_run w ps = Done (rs, w')) /\ (~ never_closed s ps <-> dir_run w ps = Crash).
Proof.
  intros w s ps H Hl Hc. destruct (dir_run_iff _ ps _ _ (dir_rel_start _ _ H) Hl Hc) as [[Hn (rs & w' & E)]|[Hn E]].
  - split; [split; eauto|]. split; [contradiction|]. rewrite E. discriminate.
  - split; split; auto; try contradiction. intros (rs & w' & E'). congruence.
Qed.
Print Assumptions C76_exact.

(** ** One object, whatever happens to others: it returns the entries of its directory, one after
    the other, and then the end, again and again. *)
Definition shown (e : dent) : drep := DEnt (type_bits (e_type e)) (e_ino e) (e_name e) false.
Fixpoint answers_to (o : Z) (ps : list dop) (rs : list drep) : list drep :=
  match ps, rs with
  | DRead o' _ :: ps, r :: rs => if o' =? o then r :: answers_to o ps rs else answers_to o ps rs
  | _ :: ps, _ :: rs => answers_to o ps rs
  | _, _ => []
  end.
(** calls that leave the object [o] and the directory [dir] alone, but for reading [o] *)
Definition only_reads (o dir : Z) (p : dop) : Prop :=
  match p with
  | DOpen o' _ _ _ | DClose o' _ | DDestroy o' _ => o' <> o
  | DRead o' k => o' = o -> k = None
  | DElse dir' _ => dir' <> dir
  | DSync _ _ => True
  end.
Lemma spec_reads o dir ps : forall s l, p_objs s !! o = Some (Some (dir, l)) -> Forall (only_reads o dir) ps ->
  answers_to o ps (fst (spec_calls s ps)) = take (length (answers_to o ps (fst (spec_calls s ps)))) (map shown l ++ replicate (length ps) (DErr 0)).
Proof.
  induction ps as [|p ps IH]; intros s l Hs Hf; cbn [spec_calls fst snd answers_to length]; [rewrite ?take_0; reflexivity|]. inversion Hf as [|? ? Hp Hf']; subst.
  assert (Hmono : forall s' l', p_objs s' !! o = Some (Some (dir, l')) -> l' = l -> answers_to o ps (fst (spec_calls s' ps)) = take (length (answers_to o ps (fst (spec_calls s' ps)))) (map shown l ++ replicate (S (length ps)) (DErr 0))).
  { intros s' l' Hs' ->. rewrite (IH s' l Hs' Hf') at 1. clear. set (n := length _). assert (Hn : (n <= length ps)%nat). { subst n. generalize (fst (spec_calls s' ps)). induction ps as [|p ps IH]; intros [|r rs]; cbn; try lia; destruct p; cbn; try (destruct (_ =? _)); cbn; try lia; specialize (IH rs); lia. }
    rewrite !firstn_app, !take_replicate. f_equal. f_equal. rewrite map_length. lia. }
  destruct p as [o' dp dir' l'|o' k|o' k|o' ok|o' ok|dir' f]; cbn [only_reads] in Hp; cbn [spec_call fst snd].
  - apply (Hmono _ l); [|reflexivity]. cbn. rewrite lookup_insert_ne by assumption. exact Hs.
  - destruct (Z.eqb_spec o' o) as [->|Hne].
    + rewrite (Hp eq_refl), Hs. destruct l as [|e l]; cbn [fst snd].
      * cbn [length take map app replicate]. f_equal. apply (IH s []); assumption.
      * cbn [length take map app]. f_equal. change (fst (spec_calls ?s ps)) with (fst (spec_calls s ps)). 
        rewrite (IH (mkP (<[o := Some (dir, l)]> (p_objs s)) (p_synced s)) l) at 1; [|cbn; apply lookup_insert|exact Hf'].
        set (n := length _). assert (Hn : (n <= length ps)%nat). { subst n. generalize (fst (spec_calls (mkP (<[o := Some (dir, l)]> (p_objs s)) (p_synced s)) ps)). clear. induction ps as [|p ps IH]; intros [|r rs]; cbn; try lia; destruct p; cbn; try (destruct (_ =? _)); cbn; try lia; specialize (IH rs); lia. }
        rewrite !firstn_app, !take_replicate. f_equal. f_equal. rewrite map_length. lia.
    + destruct k as [e|]; [apply (Hmono s l); auto|]. destruct (p_objs s !! o') as [[[d2 [|e l2]]|]|]; cbn [fst snd]; try (apply (Hmono s l); auto; fail). apply (Hmono _ l); [|reflexivity]. cbn. rewrite lookup_insert_ne by assumption. exact Hs.
  - destruct k as [e|]; [apply (Hmono s l); auto|]. destruct (p_objs s !! o') as [[[d2 l2]|]|]; cbn [fst snd]; apply (Hmono _ l); auto.
  - apply (Hmono _ l); [|reflexivity]. cbn. rewrite lookup_insert_ne by assumption. exact Hs.
  - apply (Hmono _ l); [|reflexivity]. cbn. rewrite lookup_delete_ne by assumption. exact Hs.
  - apply (Hmono _ l); [|reflexivity]. cbn. rewrite lookup_fmap, Hs. cbn. unfold changed_by. cbn. destruct (Z.eqb_spec dir dir'); [congruence|reflexivity].
Qed.
Lemma spec_calls_app ps qs : forall s, spec_calls s (ps ++ qs) = (fst (spec_calls s ps) ++ fst (spec_calls (snd (spec_calls s ps)) qs), snd (spec_calls (snd (spec_calls s ps)) qs)).
Proof. induction ps as [|p ps IH]; intros s; cbn [app spec_calls fst snd]; [destruct (spec_calls s qs); reflexivity|]. rewrite IH. reflexivity. Qed.
Lemma spec_calls_length ps : forall s, length (fst (spec_calls s ps)) = length ps.
Proof. induction ps as [|p ps IH]; intros s; cbn; [reflexivity|]. rewrite IH. reflexivity. Qed.
Theorem C76_listing : forall w s ps0 o dp dir l ps, dir_start w s -> dir_legals w (ps0 ++ DOpen o dp dir l :: ps) ->
  close_works (ps0 ++ ps) -> read_works (ps0 ++ ps) -> never_closed s (ps0 ++ DOpen o dp dir l :: ps) -> Forall (only_reads o dir) ps ->
  exists rs0 rs w', dir_run w (ps0 ++ DOpen o dp dir l :: ps) = Done (rs0 ++ DNone :: rs, w') /\ length rs0 = length ps0 /\
    answers_to o ps rs = take (length (answers_to o ps rs)) (map shown l ++ replicate (length ps) (DErr 0)).
Proof.
  intros w s ps0 o dp dir l ps H Hl Hc Hre Hn Hf. destruct (C76_partial w s _ H Hl) as (rs & w' & s' & E & Es & _); [| |exact Hn|].
  { intros x Hx. apply elem_of_app in Hx as [Hx|Hx]; [apply (Hc x), elem_of_app; auto|]. apply elem_of_cons in Hx as [Hx|Hx]; [discriminate|]. apply (Hc x), elem_of_app; auto. }
  { intros x e Hx. apply elem_of_app in Hx as [Hx|Hx]; [apply (Hre x), elem_of_app; auto|]. apply elem_of_cons in Hx as [Hx|Hx]; [discriminate|]. apply (Hre x), elem_of_app; auto. }
  rewrite spec_calls_app in Es. set (s0 := snd (spec_calls s ps0)) in *. cbn [spec_calls spec_call fst snd] in Es. injection Es as <- _.
  eexists _, _, w'. split; [exact E|]. split; [apply spec_calls_length|]. apply (spec_reads o dir ps _ l); [|exact Hf]. cbn. apply lookup_insert.
Qed.
Print Assumptions C76_listing.

(** ** Errors while reading: the answer is that of the end of the directory, whatever the error. *)
Definition without_error (p : dop) : dop := match p with DRead o (Some _) => DRead o (Some 0) | _ => p end.
Theorem C76_error_hidden : forall ps w, dir_run w (map without_error ps) = dir_run w ps.
Proof.
  assert (Hd : forall w p, dir_call w (without_error p) = dir_call w p).
  { intros w p. destruct p as [|o [e|]| | | |]; reflexivity. }
  induction ps as [|p ps IH]; intros w; cbn [map dir_run]; [reflexivity|]. rewrite Hd. destruct (dir_call w p) as [[r w1]| | |]; cbn [obind]; [rewrite IH|..]; reflexivity.
Qed.
Print Assumptions C76_error_hidden.

Definition dir_legalb (w : diow) (p : dop) : bool :=
  match p with
  | DOpen o dp _ _ => bool_decide (dw_objs w !! o = None) && negb (dp =? 0) && match dw_st w !! dp with None => true | _ => false end
  | DRead o _ | DSync o _ | DClose o _ | DDestroy o _ => match dw_objs w !! o with Some _ => true | None => false end
  | DElse _ _ => true
  end.
Fixpoint dir_legalsb (w : diow) (ps : list dop) : bool :=
  match ps with
  | [] => true
  | p :: ps => dir_legalb w p && match dir_call w p with Done (_, w') => dir_legalsb w' ps | _ => true end
  end.
Lemma dir_legalsb_ok ps : forall w, dir_legalsb w ps = true -> dir_legals w ps.
Proof.
  induction ps as [|p ps IH]; intros w H; cbn [dir_legalsb dir_legals] in *; [exact I|]. apply andb_prop in H as [Hp H]. split.
  - destruct p as [o dp dir l|o k|o k|o ok|o ok|dir f]; cbn [dir_legalb dir_legal] in *; try exact I; try (destruct (dw_objs w !! o); [eauto|discriminate Hp]).
    apply andb_prop in Hp as [Hp H3]. apply andb_prop in Hp as [H1 H2]. apply bool_decide_eq_true_1 in H1. apply negb_true_iff, Z.eqb_neq in H2. destruct (dw_st w !! dp); [discriminate H3|auto].
  - destruct (dir_call w p) as [[r w1]| | |]; auto.
Qed.
Fixpoint never_closedb (s : dirs_spec) (ps : list dop) : bool :=
  match ps with
  | [] => true
  | p :: ps => negb match p with DRead o _ | DSync o _ | DClose o _ => match p_objs s !! o with Some None => true | _ => false end | _ => false end && never_closedb (snd (spec_call s p)) ps
  end.
Lemma never_closedb_ok ps : forall s, never_closedb s ps = true -> never_closed s ps.
Proof.
  induction ps as [|p ps IH]; intros s H; cbn [never_closedb never_closed] in *; [exact I|]. apply andb_prop in H as [Hp H]. split; [|auto].
  intros Hu. destruct p as [|o k|o k|o ok| |]; cbn [uses_closed] in Hu; try contradiction; rewrite Hu in Hp; discriminate Hp.
Qed.
Ltac legals := apply dir_legalsb_ok; vm_compute; reflexivity.
(** ** Samples: two objects on different directories, one of which changes meanwhile. *)
Definition eA : dent := Dent [97] 8 11.
Definition eB : dent := Dent [98] 4 12.
Definition eC : dent := Dent [99] 0 13.
Definition d0 : diow := mkD {[9 := (77, [])]} ∅ [].
Definition ps_two : list dop := [DOpen 1 5 30 [eA; eB]; DOpen 2 6 40 [eC]; DRead 1 None; DElse 40 (fun l => l ++ [eA]); DRead 2 None; DRead 1 None; DSync 2 None; DClose 2 true; DRead 1 None; DDestroy 2 true; DRead 1 None].
Example C76_sample : dir_start d0 (mkP ∅ []) /\ dir_legals d0 ps_two /\ close_works ps_two /\ read_works ps_two /\ never_closed (mkP ∅ []) ps_two /\
  Forall (only_reads 1 30) (tail ps_two) /\
  match dir_run d0 ps_two with Done (rs, w) => answers_to 1 ps_two rs = [DEnt S_IFREG 11 [97] false; DEnt S_IFDIR 12 [98] false; DErr 0; DErr 0] /\ dw_synced w = [40] /\ map fst (map_to_list (dw_st w)) ≡ₚ [9; 5] | _ => False end.
Proof.
  split; [split; [reflexivity|split; reflexivity]|]. split; [legals|].
  split; [intros o Hin; repeat (apply elem_of_cons in Hin as [Hin|Hin]; [discriminate Hin|]); inversion Hin|].
  split; [intros o e Hin; repeat (apply elem_of_cons in Hin as [Hin|Hin]; [discriminate Hin|]); inversion Hin|].
  split; [apply never_closedb_ok; vm_compute; reflexivity|].
  split; [unfold ps_two; repeat (apply Forall_cons; split; [cbn [only_reads]; first [exact I|discriminate|reflexivity|congruence]|]); apply Forall_nil; exact I|].
  vm_compute. split; [reflexivity|]. split; [reflexivity|]. apply (bool_decide_eq_true_1 _); vm_compute; reflexivity.
Qed.

(** ** False of the code. *)
(** a call on a closed object *)
Theorem C76_refuted_late : dir_legals d0 [DOpen 1 5 30 [eA]; DClose 1 true; DRead 1 None] /\ dir_run d0 [DOpen 1 5 30 [eA]; DClose 1 true; DRead 1 None] = Crash.
Proof. split; [legals|vm_compute; reflexivity]. Qed.
(** closedir() that reports an error: the destructor closes the stream again *)
Theorem C76_refuted_twice : dir_legals d0 [DOpen 1 5 30 [eA]; DClose 1 false; DDestroy 1 true] /\ dir_run d0 [DOpen 1 5 30 [eA]; DClose 1 false; DDestroy 1 true] = Crash.
Proof. split; [legals|vm_compute; reflexivity]. Qed.
(** ... or that of another object, which then lists the directory of a third one *)
Definition ps_mixed : list dop := [DOpen 1 5 30 [eA]; DClose 1 false; DOpen 2 5 40 [eB]; DDestroy 1 true; DOpen 3 5 50 [eC]; DRead 2 None].
Theorem C76_refuted_mixed : dir_legals d0 ps_mixed /\ exists rs w', dir_run d0 ps_mixed = Done (rs, w') /\ last rs = Some (DEnt 0 13 [99] false) /\ last (fst (spec_calls (mkP ∅ []) ps_mixed)) = Some (DEnt S_IFDIR 12 [98] false).
Proof. split; [legals|]. eexists _, _. split; [vm_compute; reflexivity|]. split; vm_compute; reflexivity. Qed.
(** an error looks like the end *)
Theorem C76_refuted_error : dir_legals d0 [DOpen 1 5 30 [eA]; DRead 1 (Some EIO)] /\ exists w', dir_run d0 [DOpen 1 5 30 [eA]; DRead 1 (Some EIO)] = Done ([DNone; DErr 0], w').
Proof. split; [legals|]. eexists. vm_compute; reflexivity. Qed.
Theorem C76_refuted : ~ C76_full.
Proof. intros H. destruct C76_refuted_late as [Hl Hr]. destruct (H d0 (mkP ∅ []) _ ltac:(split; [reflexivity|split; reflexivity]) Hl) as (rs & w' & s' & E & _). congruence. Qed.
