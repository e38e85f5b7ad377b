(** The handlers on bytes (FsBytes.v) agree with those on decoded tables (Fs.v). *)
From Verif Require Export FsBytes LmdbOps PropsLmdb FsSpec.

(** arguments in the ranges of their C++ types *)
Definition req_ok (q : request) : Prop :=
  match q with
  | QLookup b p _ => u64 p /\ backend_ok b
  | QReadlink b x => u64 x /\ backend_ok b
  | QOpendir b x => u64 x /\ backend_ok b
  | QGetattr x => u64 x
  | QReaddir x _ _ => u64 x
  | QPlusBegin _ x => u64 x
  | QRestart root => attrs_ok root
  | _ => True
  end.
Definition RPlus (m : gmap Z (bdb * Z)) (m' : gmap Z (db * Z)) : Prop :=
  forall id, match m !! id, m' !! id with
             | Some (b, x), Some (d, x') => Rep b d /\ x = x' /\ u64 x
             | None, None => True
             | _, _ => False
             end.
Record RF (bs : bfstate) (s : fstate) : Prop := { rf_db : Rep (bs_db bs) (s_db s); rf_refs : bs_refs bs = s_refs s; rf_plus : RPlus (bs_plus bs) (s_plus s) }.
Definition RH (x : bfstate * list reply) (y : fstate * list reply) : Prop := RF x.1 y.1 /\ x.2 = y.2.

Section sim.
Context (pad : inode -> Z).
Lemma rt_begin bs s : RF bs s -> RT (bbegin_tx (bs_db bs) (bs_refs bs)) (begin_tx (s_db s) (s_refs s)).
Proof. intros [H1 H2 H3]. split; cbn; try assumption; try reflexivity. discriminate. Qed.
Lemma s_committed bs s bt t l : RF bs s -> RT bt t -> osim RH (bcommitted bs bt l) (committed s t l).
Proof. intros [H1 H2 H3] [G1 G2 G3 G4 G5]. unfold bcommitted, committed, commit_tx. constructor. split; [|reflexivity]. split; cbn; assumption. Qed.
Lemma s_dropped bs s bt t l : RF bs s -> RT bt t -> osim RH (bdropped bs bt l) (dropped s t l).
Proof. intros [H1 H2 H3] [G1 G2 G3 G4 G5]. unfold bdropped, dropped. constructor. split; [|reflexivity]. split; cbn; assumption. Qed.
Lemma s_lock bt t x : RT bt t -> osim RV (b_lock bt x) (lock t x).
Proof.
  intros HT. unfold b_lock, lock. rewrite (rt_refs _ _ HT). destruct (incref (t_refs t) x 1) as [[u|e] r]; constructor; (split; [reflexivity|]); destruct HT as [H1 H2 H3 H4 H5]; (split; cbn; try assumption; try reflexivity). rewrite H3. reflexivity.
Qed.
Lemma s_release bt t x n : RT bt t -> osim RV (b_release bt x n) (release t x n).
Proof.
  intros HT. unfold b_release, release. destruct (n =? 0); [constructor; split; [reflexivity|exact HT]|]. rewrite (rt_refs _ _ HT). destruct (decref (t_refs t) x n) as [[[u|e] r]| | |]; cbn [obind]; try constructor.
  split; [reflexivity|]. destruct HT as [H1 H2 H3 H4 H5]. split; cbn; try assumption; [reflexivity|]. rewrite H3. reflexivity.
Qed.
Lemma s_releases l : forall bt t, RT bt t -> osim RT (b_releases bt l) (releases t l).
Proof. induction l as [|[x n] l IH]; intros bt t HT; [constructor; exact HT|]. cbn [b_releases releases]. eapply osim_bind; [apply s_release, HT|]. intros [r bt1] [r' t1] [_ H]. apply IH, H. Qed.
Lemma lookup_u64 b d p n x : Rep b d -> lookup d p n = Ok x -> u64 x.
Proof.
  intros HR. unfold lookup. destruct (check_name n false); [|discriminate]. destruct (p =? INVALID_INO); [discriminate|].
  assert (Hl : forall k e, (k, e) ∈ from_key enc_in (d_treen d) (le64 p) -> u64 (de_ino e)).
  { intros k e H. apply elem_of_from in H as [H _]. destruct (tab_fwd _ _ _ _ _ (rep_treen _ _ HR) _ _ H) as (v & _ & [He _]). apply He. }
  induction (from_key enc_in (d_treen d) (le64 p)) as [|[[q m] e] l IH]; cbn [lookup_scan]; [discriminate|].
  assert (He : u64 (de_ino e)) by (eapply Hl; left). assert (IH' : lookup_scan p n l = Ok x -> u64 x) by (apply IH; intros k e' H; eapply Hl; right; exact H).
  repeat (case_match || destruct (decide _)); try discriminate; auto; intros E; try (injection E as <-; exact He); auto.
Qed.
Lemma readdir_u64 b d dir prev x n : Rep b d -> u64 dir -> readdir d dir prev = Ok (x, n) -> u64 x.
Proof.
  intros HR Hd. unfold readdir. destruct (prev =? 0); [intros E; injection E as <- _; exact Hd|]. destruct (r_parent b d HR dir Hd) as [_ Hp]. destruct (parent_of d dir) as [par|]; [|discriminate].
  destruct (_ && _); [intros E; injection E as <- _; apply Hp; reflexivity|]. cbn zeta.
  assert (Hl : forall q c e, ((q, c), e) ∈ from_key enc_ii (d_treei d) (enc_ii (dir, if prev =? par then 0 else prev)) -> u64 c).
  { intros q c e H. apply elem_of_from in H as [H _]. apply (tab_ok _ _ _ _ _ (rep_treei _ _ HR) _ _ H). }
  destruct (from_key enc_ii (d_treei d) _) as [|[[q c] e] l]; [discriminate|]. destruct (negb _); [discriminate|]. destruct (c =? prev).
  - destruct l as [|[[q' c'] e'] l]; [discriminate|]. destruct (negb _); [discriminate|]. intros E. injection E as <- _. eapply (Hl q' c' e'). right. left.
  - intros E. injection E as <- _. eapply (Hl q c e). left.
Qed.
Lemma from_ok st : attrs_ok st -> attrs_ok (from_backend_stat st).
Proof. intros (H1 & H2 & H3). split; [exact H1|]. split; [split; [reflexivity|reflexivity]|exact H3]. Qed.
Lemma s_lookup bs s b p n : RF bs s -> u64 p -> backend_ok b -> osim RH (bh_lookup pad bs b p n) (h_lookup s b p n).
Proof.
  intros HF Hp [Hb1 Hb2]. unfold bh_lookup, h_lookup. pose proof (rt_begin bs s HF) as HT. cbn [bt_db bbegin_tx t_db begin_tx]. rewrite (r_path _ _ (rf_db _ _ HF) p Hp).
  destruct (path (s_db s) p) as [[pp|e]| | |]; cbn [obind]; [|apply s_dropped; assumption|constructor|constructor|constructor].
  assert (Hfin : forall bt t ino a, RT bt t -> osim RH
    (dlet (x, t) := b_lock bt ino in match x with Err e => bdropped bs t [RErr e] | Ok _ => bcommitted bs t [REntry ino a] end)
    (dlet (x, t) := lock t ino in match x with Err e => dropped s t [RErr e] | Ok _ => committed s t [REntry ino a] end)).
  { intros bt t ino a H. eapply osim_bind; [apply s_lock, H|]. intros [r bt1] [r' t1] [E H1]. cbn [fst snd] in *. subst r'. destruct r; [apply s_committed|apply s_dropped]; assumption. }
  destruct (b_lstat b 0 _) as [st|e] eqn:El.
  - eapply osim_bind; [apply s_emplace; [exact HT|exact Hp|apply from_ok, (Hb1 _ _ _ El)]|]. intros [r bt1] [r' t1] [E H1]. cbn [fst snd] in *. subst r'. destruct r; [apply Hfin, H1|apply s_dropped; assumption].
  - destruct (e =? ENOTCONN).
    + rewrite (r_lookup _ _ (rf_db _ _ HF) p n Hp). cbn [obind]. destruct (lookup (s_db s) p n) as [ino|e'] eqn:Ek.
      * pose proof (lookup_u64 _ _ _ _ _ (rf_db _ _ HF) Ek) as Hi. rewrite (r_getattr _ _ (rf_db _ _ HF) ino Hi). cbn [obind]. destruct (getattr (s_db s) ino); [apply Hfin, HT|apply s_dropped; assumption].
      * destruct (e' =? ENOENT); [|apply s_dropped; assumption]. rewrite (r_test_flag _ _ (rf_db _ _ HF) p SYNCED Hp). cbn [obind]. destruct (test_flag (s_db s) p SYNCED) as [[|]|]; apply s_dropped; assumption.
    + eapply osim_bind; [apply s_unlink_name; [exact HT|exact Hp]|]. intros [r bt1] [r' t1] [_ H1]. apply s_committed; assumption.
Qed.
Lemma s_readlink bs s b x : RF bs s -> u64 x -> backend_ok b -> osim RH (bh_readlink pad bs b x) (h_readlink s b x).
Proof.
  intros HF Hx [Hb1 Hb2]. unfold bh_readlink, h_readlink. pose proof (rt_begin bs s HF) as HT. cbn [bt_db bbegin_tx t_db begin_tx]. rewrite (r_path _ _ (rf_db _ _ HF) x Hx).
  destruct (path (s_db s) x) as [[pp|e]| | |]; cbn [obind]; [|apply s_dropped; assumption|constructor|constructor|constructor].
  destruct (Fs.b_readlink b (backend_path pp)) as [l|e] eqn:El.
  - eapply osim_bind; [apply s_writelink; [exact HT|exact Hx|apply (Hb2 _ _ El)]|]. intros [r bt1] [r' t1] [_ H1]. apply s_committed; assumption.
  - destruct (e =? ENOTCONN).
    + rewrite (r_readlink _ _ (rf_db _ _ HF) x Hx). cbn [obind]. destruct (readlink (s_db s) x); apply s_dropped; assumption.
    + eapply osim_bind; [apply s_unlink_ino; [exact HT|exact Hx]|]. intros [r bt1] [r' t1] [_ H1]. apply s_committed; assumption.
Qed.
Lemma s_sync b x bp : u64 x -> backend_ok b -> forall names i bt t, RT bt t -> osim RT (b_sync_entries pad bt b x bp i names) (sync_entries t b x bp i names).
Proof.
  intros Hx [Hb1 _]. induction names as [|n names IH]; intros i bt t HT; [constructor; exact HT|]. cbn [b_sync_entries sync_entries]. destruct (b_lstat b i _) as [st|e] eqn:El; [|apply IH, HT].
  eapply osim_bind; [apply s_emplace; [exact HT|exact Hx|apply from_ok, (Hb1 _ _ _ El)]|]. intros [r bt1] [r' t1] [_ H1]. apply IH, H1.
Qed.
Lemma s_opendir bs s b x : RF bs s -> u64 x -> backend_ok b -> osim RH (bh_opendir pad bs b x) (h_opendir s b x).
Proof.
  intros HF Hx Hb. unfold bh_opendir, h_opendir. pose proof (rt_begin bs s HF) as HT. cbn [bt_db bbegin_tx t_db begin_tx]. rewrite (r_path _ _ (rf_db _ _ HF) x Hx).
  destruct (path (s_db s) x) as [[pp|e]| | |]; cbn [obind]; [|apply s_dropped; assumption|constructor|constructor|constructor]. cbn zeta.
  destruct (b_opendir b (backend_path pp)) as [[names er]|e].
  - eapply osim_bind; [apply s_start; [exact HT|exact Hx]|]. intros [r bt1] [r' t1] [_ H1]. eapply osim_bind; [apply s_sync; [exact Hx|exact Hb|exact H1]|]. intros bt2 t2 H2.
    eapply osim_bind; [apply s_flags; [exact H2|exact Hx]|]. intros [r3 bt3] [r3' t3] [_ H3]. eapply osim_bind; [apply s_finish, H3|]. intros [r4 bt4] [r4' t4] [_ H4]. apply s_committed; assumption.
  - destruct (e =? ENOTCONN); [apply s_committed|apply s_dropped]; assumption.
Qed.
Lemma s_readdir_loop b d x size : Rep b d -> u64 x -> forall fuel c buf k, u64 c -> b_readdir_loop fuel b x size c buf k = readdir_loop fuel d x size c buf k.
Proof.
  intros HR Hx. induction fuel as [|fuel IH]; intros c buf k Hc; [reflexivity|]. cbn [b_readdir_loop readdir_loop]. destruct (_ <? size); [|reflexivity]. cbn zeta.
  rewrite (r_readdir _ _ HR x c Hx Hc). cbn [obind]. destruct (readdir d x c) as [[y n]|e] eqn:Er; [|reflexivity]. pose proof (readdir_u64 _ _ _ _ _ _ HR Hx Er) as Hy.
  rewrite (r_getattr _ _ HR y Hy). cbn [obind]. destruct (getattr d y); [|reflexivity]. destruct (dirbuf_add _ _ _ _ _); cbn [obind]; try reflexivity. apply IH, Hy.
Qed.
Lemma s_fuel b d : Rep b d -> b_dir_fuel b = dir_fuel d.
Proof. intros HR. unfold b_dir_fuel, dir_fuel. rewrite (tab_size _ _ _ enc_ii_inj' _ _ (rep_treei _ _ HR)). reflexivity. Qed.
Lemma s_h_readdir bs s x size off : RF bs s -> u64 x -> osim RH (bh_readdir bs x size off) (h_readdir s x size off).
Proof.
  intros HF Hx. unfold bh_readdir, h_readdir. cbn zeta. rewrite (s_fuel _ _ (rf_db _ _ HF)), (s_readdir_loop _ _ x size (rf_db _ _ HF) Hx) by apply w64_u64.
  destruct (readdir_loop _ _ _ _ _ _ _) as [[[[er ae] buf] k]| | |]; cbn [obind]; try constructor. destruct (ae && (length buf =? 0)%nat); cbn [andb].
  - rewrite (r_test_flag _ _ (rf_db _ _ HF) x SYNCED Hx). cbn [obind]. constructor. split; [exact HF|]. cbn [snd]. destruct (test_flag (s_db s) x SYNCED) as [[|]|]; reflexivity.
  - constructor. split; [exact HF|reflexivity].
Qed.
Lemma s_plus_loop x size : u64 x -> forall fuel bt t c buf k, RT bt t -> u64 c ->
  osim (fun y z => y.1 = z.1 /\ RT y.2 z.2) (b_plus_loop fuel bt x size c buf k) (plus_loop fuel t x size c buf k).
Proof.
  intros Hx. induction fuel as [|fuel IH]; intros bt t c buf k HT Hc; [constructor|]. cbn [b_plus_loop plus_loop]. destruct (_ <? size); [|constructor; split; [reflexivity|exact HT]]. cbn zeta.
  rewrite (r_readdir _ _ (rt_db _ _ HT) x c Hx Hc). cbn [obind]. destruct (readdir (t_db t) x c) as [[y n]|e] eqn:Er; [|constructor; split; [reflexivity|exact HT]]. pose proof (readdir_u64 _ _ _ _ _ _ (rt_db _ _ HT) Hx Er) as Hy.
  rewrite (r_getattr _ _ (rt_db _ _ HT) y Hy). cbn [obind]. destruct (getattr (t_db t) y); [|constructor; split; [reflexivity|exact HT]]. destruct (plusbuf_add _ _ _ _ _); cbn [obind]; try constructor.
  destruct (decide (n = DOT)); [apply IH; assumption|]. destruct (decide (n = DOTDOT)); [apply IH; assumption|].
  eapply osim_bind; [apply s_lock, HT|]. intros [r bt1] [r' t1] [E H1]. cbn [fst snd] in *. subst r'. destruct r as [u|e]; [apply IH; assumption|]. destruct (e =? ESTALE); [apply IH; assumption|]. constructor. split; [reflexivity|exact H1].
Qed.
Lemma rplus_delete m m' id : RPlus m m' -> RPlus (delete id m) (delete id m').
Proof. intros H i. destruct (decide (i = id)) as [->|N]; [rewrite !lookup_delete; exact I|]. rewrite !lookup_delete_ne by congruence. apply H. Qed.
Lemma s_h_plus bs s id size off : RF bs s -> osim RH (bh_plus bs id size off) (h_plus s id size off).
Proof.
  intros HF. unfold bh_plus, h_plus. pose proof (rf_plus _ _ HF id) as Hp. destruct (bs_plus bs !! id) as [[b x]|], (s_plus s !! id) as [[d x']|]; try contradiction; [|constructor].
  destruct Hp as (HR & <- & Hx). rewrite (s_fuel _ _ HR). eapply osim_bind.
  - apply s_plus_loop; [exact Hx| |apply w64_u64]. split; cbn; try assumption; try reflexivity; [apply (rf_refs _ _ HF)|discriminate].
  - intros [y bt] [y' t] [E HT]. cbn [fst snd] in *. subst y'. cbn zeta. assert (HF' : RF (BFst (bs_db bs) (bt_refs bt) (delete id (bs_plus bs))) (Fst (s_db s) (t_refs t) (delete id (s_plus s)))).
    { split; cbn; [apply (rf_db _ _ HF)|apply (rt_refs _ _ HT)|apply rplus_delete, (rf_plus _ _ HF)]. }
    destruct y as [[[er buf] k]|]; [destruct (er =? 0)|]; constructor; (split; [exact HF'|reflexivity]).
Qed.
Lemma s_ended x y : osim RH x y -> osim (fun a b => RF a.1 b.1 /\ a.2 = b.2) (dlet (s, l) := x in Done (s, Some l)) (dlet (s, l) := y in Done (s, Some l)).
Proof. intros H. eapply osim_bind; [exact H|]. intros [s l] [s' l'] [H1 H2]. cbn [fst snd] in *. subst l'. constructor. split; [exact H1|reflexivity]. Qed.
Lemma s_fstep bs s q : RF bs s -> req_ok q -> osim (fun a b => RF a.1 b.1 /\ a.2 = b.2) (bfstep pad bs q) (fstep s q).
Proof.
  intros HF Hq. destruct q; cbn [bfstep fstep req_ok] in *.
  - apply s_ended, s_lookup; tauto.
  - apply s_ended. unfold bh_forget, h_forget. eapply osim_bind; [apply s_release, rt_begin, HF|]. intros [r bt1] [r' t1] [E H1]. cbn [fst snd] in *. subst r'. destruct r; [apply s_committed|apply s_dropped]; assumption.
  - apply s_ended. unfold bh_forget_multi, h_forget_multi. eapply osim_bind; [apply s_releases, rt_begin, HF|]. intros bt1 t1 H1. apply s_committed; assumption.
  - apply s_ended. unfold bh_getattr, h_getattr. rewrite (r_getattr _ _ (rf_db _ _ HF) ino Hq). cbn [obind]. destruct (getattr (s_db s) ino); constructor; (split; [exact HF|reflexivity]).
  - apply s_ended, s_readlink; tauto.
  - apply s_ended, s_opendir; tauto.
  - apply s_ended, s_h_readdir; assumption.
  - constructor. split; [exact HF|reflexivity].
  - constructor. split; [|reflexivity]. destruct HF as [H1 H2 H3]. split; cbn; try assumption. intros i. destruct (decide (i = id)) as [->|N]; [rewrite !lookup_insert; auto|]. rewrite !lookup_insert_ne by congruence. apply H3.
  - apply s_ended, s_h_plus; assumption.
  - constructor. split; [exact HF|reflexivity].
  - eapply osim_bind; [apply sim_open; [apply (rf_db _ _ HF)|exact Hq]|]. intros [b r] [d r'] [H1 H2]. cbn [fst snd] in *. subst r'. constructor. split; [|reflexivity]. split; cbn; [exact H1|reflexivity|]. intros i. rewrite !lookup_empty. exact I.
Qed.
Lemma s_fopen root : attrs_ok root -> osim RF (bfopen pad root) (fopen root).
Proof.
  intros Ha. unfold bfopen, fopen. eapply osim_bind; [apply sim_open; [apply rep_empty|exact Ha]|]. intros [b r] [d r'] [H1 H2]. cbn [fst snd] in *. subst r'. constructor. split; cbn; [exact H1|reflexivity|]. intros i. rewrite !lookup_empty. exact I.
Qed.
Lemma s_frun l : forall bs s, RF bs s -> Forall req_ok l -> osim (fun a b => a.1 = b.1 /\ RF a.2 b.2) (bfrun pad bs l) (frun s l).
Proof.
  induction l as [|q l IH]; intros bs s HF Hl; [constructor; split; [reflexivity|exact HF]|]. apply Forall_cons in Hl as [Hq Hl]. cbn [bfrun frun].
  eapply osim_bind; [apply s_fstep; assumption|]. intros [bs1 o] [s1 o'] [H1 H2]. cbn [fst snd] in *. subst o'. eapply osim_bind; [apply IH; assumption|]. intros [os bs2] [os' s2] [E H3]. cbn [fst snd] in *. subst os'. constructor. split; [reflexivity|exact H3].
Qed.
End sim.
