(** Property C82: asking again changes nothing on disk. *)
From Verif Require Export FsWalk FsPaths.
From Verif Require Import PropsFs.

(** ** Specification *)
(** The requests that ask for something: all but forget and the opening of the cache. *)
Definition asks (q : request) : Prop :=
  match q with QForget _ _ | QForgetMulti _ | QRestart _ => False | _ => True end.
(** no directory of the backend is listed with one name twice *)
Definition lists_once (q : request) : Prop :=
  match q with QOpendir b _ => forall p names e, b_opendir b p = Ok (names, e) -> NoDup names | _ => True end.

(** ** What a database looks like to which the backend's answers to [q] have been written *)
Definition holds_now (d : db) (p : Z) (n : bytes) (st : attrs) : Prop :=
  ~ valid_name n \/ exists e, d_treen d !! (p, n) = Some e /\ d_inodes d !! de_ino e = Some (mkinode (from_backend_stat st) p).
Definition settled (d : db) (q : request) : Prop :=
  match q with
  | QLookup b p n => forall pp, path d p = Done (Ok pp) ->
    match b_lstat b 0 (pp ++ [47] ++ n) with
    | Ok st => holds_now d p n st
    | Err e => e <> ENOTCONN -> d_treen d !! (p, n) = None
    end
  | QReadlink b x => forall pp, path d x = Done (Ok pp) ->
    match b_readlink b (backend_path pp) with
    | Ok link => forall i, d_inodes d !! x = Some i -> ftype (a_mode (i_attr i)) = S_IFLNK ->
        set_size (Z.of_nat (length link)) (i_attr i) = i_attr i /\ d_links d !! x = Some link
    | Err e => e <> ENOTCONN -> x = 1
    end
  | QOpendir b x => forall pp names e0, path d x = Done (Ok pp) -> b_opendir b (backend_path pp) = Ok (names, e0) ->
    (forall j n st, names !! j = Some n -> b_lstat b j (join_path (backend_path pp) n) = Ok st -> holds_now d x n st) /\
    (forall n e, d_treen d !! (x, n) = Some e -> valid_name n /\ exists j st, names !! j = Some n /\ b_lstat b j (join_path (backend_path pp) n) = Ok st) /\
    exists i, d_inodes d !! x = Some i /\ flag_set (i_flags i) SYNCED = i_flags i
  | _ => True
  end.

(** ** A settled database is not changed *)
Lemma eta_inode i : Inode (i_flags i) (i_parent i) (i_attr i) = i.
Proof. destruct i; reflexivity. Qed.
Lemma set_inodes_id d : set_inodes (d_inodes d) d = d.
Proof. destruct d; reflexivity. Qed.
Lemma set_links_id d : set_links (d_links d) d = d.
Proof. destruct d; reflexivity. Qed.
Lemma emplace_again t p n st : holds_now (t_db t) p n st -> exists x rw, emplace t p n (from_backend_stat st) = Done (x, Tx (t_db t) (t_refs t) (t_hooks t) rw) /\
  (forall y, y ∈ default ∅ rw -> y ∈ default ∅ (t_rw t)) /\
  (valid_name n -> exists e, d_treen (t_db t) !! (p, n) = Some e /\ x = Ok (de_ino e) /\ de_ino e ∉ default (∅ : gset Z) rw).
Proof.
  intros Hh. unfold emplace, holds_now, valid_name in *. destruct (check_name n true) as [[]|er] eqn:Ec.
  2:{ exists (Err er), (t_rw t). split; [destruct t; reflexivity|]. split; [auto|]. intros; congruence. }
  destruct Hh as [Hh|(e & He & Hi)]; [congruence|]. rewrite He, Hi. cbn [mkinode i_attr]. rewrite Z.eqb_refl.
  exists (Ok (de_ino e)), (match t_rw t with None => None | Some s => Some (s ∖ {[de_ino e]}) end). split.
  - rewrite insert_id by exact Hi. rewrite set_inodes_id. reflexivity.
  - split; [destruct (t_rw t); cbn; set_solver|]. intros _. exists e. split; [reflexivity|]. split; [reflexivity|]. destruct (t_rw t); cbn; set_solver.
Qed.
Lemma sync_again b x bp : forall names i t t', sync_entries t b x bp i names = Done t' ->
  (forall j n st, names !! j = Some n -> b_lstat b (i + j) (join_path bp n) = Ok st -> holds_now (t_db t) x n st) ->
  t_db t' = t_db t /\ forall y, y ∈ default (∅ : gset Z) (t_rw t') -> y ∈ default (∅ : gset Z) (t_rw t) /\
    forall j n st e, names !! j = Some n -> b_lstat b (i + j) (join_path bp n) = Ok st -> valid_name n -> d_treen (t_db t) !! (x, n) = Some e -> y <> de_ino e.
Proof.
  induction names as [|n0 names IH]; intros i t t' E Hh; cbn [sync_entries] in E; [injection E as <-; split; [reflexivity|]; intros y Hy; split; [exact Hy|]; intros j n st e Hj; discriminate|].
  assert (Hh' : forall j n st, names !! j = Some n -> b_lstat b (S i + j) (join_path bp n) = Ok st -> holds_now (t_db t) x n st).
  { intros j n st Hj Hl. apply (Hh (S j)); [exact Hj|]. replace (i + S j)%nat with (S i + j)%nat by lia. exact Hl. }
  destruct (b_lstat b i (join_path bp n0)) as [st0|er] eqn:El.
  - assert (H0 : holds_now (t_db t) x n0 st0) by (apply (Hh 0%nat n0 st0); [reflexivity|rewrite Nat.add_0_r; exact El]).
    destruct (emplace_again t x n0 st0 H0) as (r & rw & Ee & Hrw & Hv). rewrite Ee in E. cbn [obind] in E. apply IH in E; [|exact Hh']. cbn [t_db t_rw] in E. destruct E as [Ed Ey]. split; [exact Ed|].
    intros y Hy. destruct (Ey y Hy) as [Hy1 Hy2]. split; [auto|]. intros [|j] n st e Hj Hl Hvn He.
    + cbn in Hj. injection Hj as <-. destruct (Hv Hvn) as (e' & He' & _ & Hn). rewrite He in He'. injection He' as <-. intros ->. auto.
    + apply (Hy2 j n st e); auto. replace (S i + j)%nat with (i + S j)%nat by lia. exact Hl.
  - apply IH in E; [|exact Hh']. destruct E as [Ed Ey]. split; [exact Ed|]. intros y Hy. destruct (Ey y Hy) as [Hy1 Hy2]. split; [auto|]. intros [|j] n st e Hj Hl Hvn He.
    + cbn in Hj. injection Hj as <-. rewrite Nat.add_0_r in Hl. congruence.
    + apply (Hy2 j n st e); auto. replace (S i + j)%nat with (i + S j)%nat by lia. exact Hl.
Qed.
Lemma lock_db t x r t1 : lock t x = Done (r, t1) -> t_db t1 = t_db t.
Proof. unfold lock. destruct (incref _ _ _) as [[?|?] ?]; intros E; injection E as _ <-; reflexivity. Qed.
Lemma plus_db s id size off s' l : h_plus s id size off = Done (s', l) -> s_db s' = s_db s.
Proof.
  unfold h_plus. destruct (s_plus s !! id) as [[snap x]|]; [|discriminate]. destruct (plus_loop _ _ _ _ _ _ _) as [[r t]| | |]; try discriminate. cbn [obind].
  destruct r as [[[e bf] ts]|]; [destruct (e =? 0)|]; intros E; injection E as <- _; reflexivity.
Qed.
Lemma readdir_db s x size off s' l : h_readdir s x size off = Done (s', l) -> s_db s' = s_db s.
Proof. unfold h_readdir. destruct (readdir_loop _ _ _ _ _ _ _) as [[[[e a] bf] ts]| | |]; try discriminate. cbn [obind]. intros E. injection E as <- _. reflexivity. Qed.
Lemma settled_again s q s' o : Inv (s_db s) -> asks q -> settled (s_db s) q -> fstep s q = Done (s', o) -> s_db s' = s_db s.
Proof.
  intros Hi Ha Hs E. destruct q as [b p n|x n|l|x|b x|b x|x size off|x|id x|id size off|tag|root]; try contradiction; cbn [fstep settled] in *.
  - unfold h_lookup in E. cbn [begin_tx t_db] in E. destruct (path (s_db s) p) as [[pp|e]| | |] eqn:Ep; cbn [obind] in E; try discriminate; [|injection E as <- _; reflexivity].
    specialize (Hs pp eq_refl). destruct (b_lstat b 0 (pp ++ [47] ++ n)) as [st|e] eqn:El.
    + destruct (emplace_again (begin_tx (s_db s) (s_refs s)) p n st Hs) as (r & rw & Ee & _). unfold begin_tx in Ee, E. cbn [t_db t_refs t_hooks] in Ee. rewrite Ee in E. cbn [obind] in E.
      destruct r as [c|e]; [|injection E as <- _; reflexivity]. destruct (lock _ c) as [[r2 t2]| | |] eqn:El2; try discriminate. pose proof (lock_db _ _ _ _ El2) as Hd. cbn [t_db] in Hd.
      cbn [obind] in E. destruct r2; injection E as <- _; [exact Hd|reflexivity].
    + destruct (Z.eqb_spec e ENOTCONN) as [->|Hne].
      * destruct (lookup (s_db s) p n) as [c|e].
        -- destruct (getattr (s_db s) c); [|injection E as <- _; reflexivity]. destruct (lock _ c) as [[r2 t2]| | |] eqn:El2; try discriminate. pose proof (lock_db _ _ _ _ El2) as Hd. cbn [begin_tx t_db] in Hd.
           cbn [obind] in E. destruct r2; injection E as <- _; [exact Hd|reflexivity].
        -- destruct (e =? ENOENT); [destruct (test_flag (s_db s) p SYNCED) as [[]|]|]; injection E as <- _; reflexivity.
      * unfold unlink_name in E. cbn [begin_tx t_db] in E. rewrite (Hs Hne) in E. cbn [obind] in E. injection E as <- _. reflexivity.
  - unfold h_getattr in E. destruct (getattr (s_db s) x); injection E as <- _; reflexivity.
  - unfold h_readlink in E. cbn [begin_tx t_db] in E. destruct (path (s_db s) x) as [[pp|e]| | |] eqn:Ep; cbn [obind] in E; try discriminate; [|injection E as <- _; reflexivity].
    specialize (Hs pp eq_refl). destruct (b_readlink b (backend_path pp)) as [link|e] eqn:El.
    + unfold writelink in E. cbn [begin_tx t_db] in E. destruct (d_inodes (s_db s) !! x) as [i|] eqn:Ex; [|injection E as <- _; reflexivity].
      destruct (Z.eqb_spec (ftype (a_mode (i_attr i))) S_IFLNK) as [Hf|Hf]; cbn [negb] in E; [|injection E as <- _; reflexivity].
      destruct (Hs i eq_refl Hf) as [Hz Hl]. rewrite Hz, eta_inode, (insert_id (d_inodes (s_db s)) x i), set_inodes_id, (insert_id (d_links (s_db s)) x link), set_links_id in E by assumption. injection E as <- _. reflexivity.
    + destruct (Z.eqb_spec e ENOTCONN) as [->|Hne]; [destruct (readlink (s_db s) x); injection E as <- _; reflexivity|]. rewrite (Hs Hne) in E. unfold unlink_ino in E. cbn [begin_tx t_db] in E. rewrite make_orphan_root in E by assumption.
      injection E as <- _. reflexivity.
  - unfold h_opendir in E. cbn [begin_tx t_db] in E. destruct (path (s_db s) x) as [[pp|e]| | |] eqn:Ep; cbn [obind] in E; try discriminate; [|injection E as <- _; reflexivity].
    destruct (b_opendir b (backend_path pp)) as [[names e0]|e] eqn:El; [|destruct (e =? ENOTCONN); injection E as <- _; reflexivity].
    destruct (Hs pp names e0 eq_refl El) as (H1 & H2 & i & Hx & Hf).
    destruct (start_dir_rewrite (begin_tx (s_db s) (s_refs s)) x) as [[r1 t1]| | |] eqn:E1; try discriminate. cbn [obind] in E.
    assert (Ht1 : t_db t1 = s_db s /\ forall y, y ∈ default (∅ : gset Z) (t_rw t1) -> exists e, d_treei (s_db s) !! (x, y) = Some e).
    { unfold start_dir_rewrite in E1. cbn [begin_tx t_rw t_db] in E1. pose proof (fun y => rewrite_scan_spec (s_db s) x y Hi (proj2 (inode_range _ _ _ Hi Hx))) as Hsc.
      destruct (from_key enc_ii (d_treei (s_db s)) (le64 x)) eqn:Ef; injection E1 as _ <-; cbn [t_db t_rw]; (split; [reflexivity|]); intros y Hy; [cbn in Hy; set_solver|]. apply Hsc. exact Hy. }
    destruct Ht1 as [Hd1 Hy1]. destruct (sync_entries t1 b x (backend_path pp) 0 names) as [t2| | |] eqn:E2; try discriminate. cbn [obind] in E.
    apply sync_again in E2; [|rewrite Hd1; cbn [Nat.add]; exact H1]. rewrite Hd1 in E2. destruct E2 as [Hd2 Hy2].
    unfold update_flags in E. rewrite Hd2, Hx in E. cbn [fold_left] in E. rewrite Hf, eta_inode, insert_id, set_inodes_id in E by assumption. cbn [obind] in E.
    unfold finish_dir_rewrite in E. cbn [with_db t_rw t_db t_refs t_hooks] in E. destruct (t_rw t2) as [S|] eqn:Er; cbn [obind] in E; injection E as <- _; [|reflexivity]. cbn [s_db set_dbr t_db].
    assert (S = ∅) as ->; [|reflexivity]. apply set_eq. intros y. split; [|set_solver]. intros Hy. exfalso. destruct (Hy2 y Hy) as [Hy3 Hy4]. destruct (Hy1 y Hy3) as (e & He).
    destruct (inv_treei _ Hi _ _ _ He) as (Hye & _ & _ & _ & _ & Hn). destruct (H2 _ _ Hn) as (Hv & j & st & Hj & Hl). apply (Hy4 j _ st e Hj Hl Hv Hn). auto.
  - destruct (h_readdir s x size off) as [[s2 l]| | |] eqn:Eh; try discriminate. cbn [obind] in E. injection E as <- _. exact (readdir_db _ _ _ _ _ _ Eh).
  - injection E as <- _. reflexivity.
  - injection E as <- _. reflexivity.
  - destruct (h_plus s id size off) as [[s2 l]| | |] eqn:Eh; try discriminate. cbn [obind] in E. injection E as <- _. exact (plus_db _ _ _ _ _ _ Eh).
  - injection E as <- _. reflexivity.
Qed.

(** ** A request leaves a settled database *)
Lemma walk_below d comps x : Inv d -> walk d 1 comps x -> FsClean.below d x.
Proof.
  intros Hi Hw. destruct (walk_last _ _ _ Hi Hw) as [[-> _]|(c & n & p & e & _ & _ & He & _)].
  - destruct (inv_root _ Hi) as (i & Hr & _). eapply has_below; eassumption.
  - destruct (inv_treei _ Hi _ _ _ He) as (_ & _ & _ & _ & (i & Hx & _) & _). eapply has_below; eassumption.
Qed.
Lemma same_path d d' comps x pp : Inv d -> Inv d' -> pathkeeps d d' -> walk d 1 comps x -> path d' x = Done (Ok pp) -> pp = spell comps.
Proof.
  intros Hi Hi' [_ Hk] Hw Ep. destruct (path_spec d' x Hi') as [(c' & Hw' & Ep')|[_ Ep']]; rewrite Ep' in Ep; [|discriminate]. injection Ep as <-. f_equal.
  apply Hk in Hw'; [|eapply walk_below; eassumption]. eapply walk_unique; [exact Hi|exact Hw'|exact Hw].
Qed.
Lemma no_path d x : Inv d -> (forall comps, ~ walk d 1 comps x) -> path d x = Done (Err ENOENT).
Proof. intros Hi Hn. destruct (path_spec d x Hi) as [(c & Hw & _)|[_ E]]; [destruct (Hn _ Hw)|exact E]. Qed.
Lemma walk_path d x comps pp : Inv d -> walk d 1 comps x -> path d x = Done (Ok pp) -> pp = spell comps.
Proof. intros Hi Hw Ep. eapply same_path; [exact Hi|exact Hi|apply pathkeeps_refl; exact Hi|exact Hw|exact Ep]. Qed.
Lemma unpar_set_flags R j : i_flags (unpar_set R j) = i_flags j.
Proof. unfold unpar_set. destruct (decide _); reflexivity. Qed.
(** what emplace writes has no flags, and it sets no others *)
Lemma emplace_flags t p n a x t1 : TInv t -> is_dir (t_db t) p -> room (t_db t) -> emplace t p n a = Done (x, t1) ->
  (forall c i, d_inodes (t_db t1) !! c = Some i -> x = Ok c \/ exists j, d_inodes (t_db t) !! c = Some j /\ i_flags i = i_flags j) /\
  (forall c i, x = Ok c -> d_inodes (t_db t1) !! c = Some i -> i_flags i = 0).
Proof.
  intros HT Hd Hr E. pose proof (tinv_db _ HT) as H.
  destruct (emplace_spec t p n a HT Hd Hr) as [(err & Hcn & E')|[(Hv & e' & i' & He' & Hi' & Hty & E' & HT')|(Hv & Hty & k & R & Hk & Hfresh & Hd1 & HR & E' & HT')]]; rewrite E' in E; injection E as <- <-; cbn [t_db].
  - split; [eauto|congruence].
  - cbn [d_inodes set_inodes]. split.
    + intros c i Hc. destruct (decide (de_ino e' = c)) as [->|Hne]; [auto|]. rewrite lookup_insert_ne in Hc by assumption. eauto.
    + intros c i [= <-] Hc. rewrite lookup_insert in Hc. injection Hc as <-. reflexivity.
  - split.
    + intros c i Hc. apply cleaned_inodes in Hc as (_ & j & Hj & ->). cbn [d_inodes added] in Hj. destruct (decide (k = c)) as [->|Hne]; [auto|]. right. rewrite lookup_insert_ne in Hj by assumption.
      revert Hj. unfold detached_name. destruct (d_treen (t_db t) !! (p, n)) as [e|]; [|intros Hj; exists j; split; [exact Hj|apply unpar_set_flags]].
      destruct (d_inodes (t_db t) !! de_ino e) as [i0|] eqn:Ei; [|intros Hj; exists j; split; [exact Hj|apply unpar_set_flags]]. cbn [d_inodes detach1]. intros Hj. rewrite unpar_set_flags.
      destruct (decide (de_ino e = c)) as [<-|Hne']; [rewrite lookup_insert in Hj; injection Hj as <-; eauto|]. rewrite lookup_insert_ne in Hj by assumption. eauto.
    + intros c i [= <-] Hc. apply cleaned_inodes in Hc as (_ & j & Hj & ->). cbn [d_inodes added] in Hj. rewrite lookup_insert in Hj. injection Hj as <-. rewrite unpar_set_flags. reflexivity.
Qed.
Lemma made d p n e a i : Inv d -> d_treen d !! (p, n) = Some e -> getattr d (de_ino e) = Ok a -> d_inodes d !! de_ino e = Some i -> i_flags i = 0 -> d_inodes d !! de_ino e = Some (mkinode a p).
Proof.
  intros Hi He Ha Hx Hf. destruct (treen_child _ _ _ _ Hi He) as (_ & _ & i' & Hi' & Hp). rewrite Hx in Hi'. injection Hi' as <-. apply getattr_Ok in Ha as (i2 & Hi2 & <-). rewrite Hx in Hi2. injection Hi2 as <-.
  rewrite Hx. f_equal. destruct i as [f pa at_]. cbn in *. subst. reflexivity.
Qed.
Definition unflagged (t : tx) (m : gmap bytes (Z * attrs)) : Prop := forall n c a i, m !! n = Some (c, a) -> d_inodes (t_db t) !! c = Some i -> i_flags i = 0.
Lemma sync_unflagged W t0 b dir bp : forall names i t m W' t' m', session dir t m -> way W t0 W' t -> W' + Z.of_nat (length names) + 3 < 2 ^ 64 -> unflagged t m ->
  sync_entries t b dir bp i names = Done t' -> session dir t' m' -> (forall n, (valid_name n -> snd <$> m' !! n = last_stat b bp i names n (snd <$> m !! n)) /\ (~ valid_name n -> m' !! n = m !! n)) -> unflagged t' m'.
Proof.
  induction names as [|n0 names IH]; intros i t m W' t' m' HS HWay HW HU E HS' HM; cbn [sync_entries] in E.
  - injection E as <-. intros n c a j Hm Hj. assert (Hd : valid_name n \/ ~ valid_name n) by (unfold valid_name; destruct (check_name n true) as [[]|]; [left; reflexivity|right; discriminate]). destruct Hd as [Hv|Hv].
    + destruct (HM n) as [H1 _]. specialize (H1 Hv). cbn [last_stat] in H1. rewrite Hm in H1. destruct (m !! n) as [[c2 a2]|] eqn:Em; [|discriminate].
      destruct (s_m _ _ _ (session_inv _ _ _ HS) _ _ _ Em) as (e & He & He2 & _). destruct (s_m _ _ _ (session_inv _ _ _ HS') _ _ _ Hm) as (e' & He' & He2' & _). rewrite He in He'. injection He' as <-. subst c2. apply (HU n c a2 j); [congruence|exact Hj].
    + destruct (HM n) as [_ H1]. specialize (H1 Hv). apply (HU n c a j); [congruence|exact Hj].
  - cbn [length] in HW. destruct (b_lstat b i (join_path bp n0)) as [st|er] eqn:El.
    2:{ eapply (IH (S i) t m W'); try eassumption; [lia|]. intros n. destruct (HM n) as [H1 H2]. split; [|exact H2]. intros Hv. rewrite (H1 Hv). cbn [last_stat]. rewrite El. destruct (decide _); reflexivity. }
    pose proof (s_dir _ _ _ (session_inv _ _ _ HS)) as Hdir. pose proof (way_room _ _ _ _ HWay ltac:(lia)) as Hroom. pose proof (way_tinv _ _ _ _ HWay) as HT.
    destruct (emplace t dir n0 (from_backend_stat st)) as [[x1 t1]| | |] eqn:Ee; try discriminate. cbn [obind] in E.
    destruct (way_emplace _ _ _ _ _ _ _ _ _ HWay Hdir ltac:(lia) Ee) as [W1 R1].
    assert (HS1 : session dir t1 (match x1 with Ok c => <[n0 := (c, from_backend_stat st)]> m | Err _ => m end)) by (destruct x1; [eapply ses_emplace|eapply ses_reject]; eassumption).
    destruct (emplace_flags _ _ _ _ _ _ HT Hdir Hroom Ee) as [HF1 HF2].
    assert (Hx1 : valid_name n0 <-> exists c, x1 = Ok c).
    { destruct (emplace_spec t dir n0 (from_backend_stat st) HT Hdir Hroom) as [(err & Hcn & E')|[(Hv & ? & ? & _ & _ & _ & E' & _)|(Hv & _ & ? & ? & _ & _ & _ & _ & E' & _)]];
        rewrite E' in Ee; injection Ee as <- _; unfold valid_name in *; split; eauto; try (intros [? ?]; discriminate). intros Hv. congruence. }
    eapply (IH (S i) t1 _ (W' + 1)); [exact HS1|exact W1|lia| |exact E|exact HS'|].
    + intros n c a j Hm Hj. destruct x1 as [c1|er].
      * destruct (decide (n0 = n)) as [->|Hne]; [rewrite lookup_insert in Hm; injection Hm as <- _; eapply HF2; [reflexivity|exact Hj]|]. rewrite lookup_insert_ne in Hm by assumption.
        destruct (HF1 _ _ Hj) as [[= ->]|(j0 & Hj0 & ->)]; [eapply HF2; [reflexivity|exact Hj]|eapply HU; eassumption].
      * destruct (HF1 _ _ Hj) as [?|(j0 & Hj0 & ->)]; [discriminate|eapply HU; eassumption].
    + intros n. destruct (HM n) as [H1 H2]. split.
      * intros Hv. rewrite (H1 Hv). cbn [last_stat]. rewrite El. f_equal. destruct (decide (n0 = n)) as [->|Hne].
        -- apply Hx1 in Hv as [c ->]. rewrite lookup_insert. reflexivity.
        -- destruct x1; [rewrite lookup_insert_ne by assumption|]; reflexivity.
      * intros Hv. rewrite (H2 Hv). destruct x1 as [c|]; [|reflexivity]. rewrite lookup_insert_ne; [reflexivity|]. intros ->. apply Hv. apply Hx1. eauto.
Qed.
Lemma make_orphan_flags d c x i : Inv d -> d_inodes (make_orphan d c).2 !! x = Some i -> exists j, d_inodes d !! x = Some j /\ i_flags i = i_flags j.
Proof.
  intros H. destruct (make_orphan_cases d c H) as [(_ & ->)|[(_ & ->)|[(_ & ->)|(p & e & i0 & He & Hi & ->)]]]; cbn [snd]; eauto. cbn [d_inodes detach1].
  destruct (decide (c = x)) as [->|Hne]; [rewrite lookup_insert; intros [= <-]; eauto|rewrite lookup_insert_ne by assumption; eauto].
Qed.
Lemma fold_orphan_flags l x i : forall d, Inv d -> d_inodes (fold_left (fun d ino => (make_orphan d ino).2) l d) !! x = Some i -> exists j, d_inodes d !! x = Some j /\ i_flags i = i_flags j.
Proof.
  induction l as [|c l IH]; intros d H Hx; [eauto|]. cbn [fold_left] in Hx. destruct (IH _ (make_orphan_inv d c H) Hx) as (j & Hj & Hf). destruct (make_orphan_flags _ _ _ _ H Hj) as (j2 & Hj2 & Hf2). exists j2. split; [exact Hj2|congruence].
Qed.
Lemma flag_set_twice fl : flag_set (flag_set fl SYNCED) SYNCED = flag_set fl SYNCED.
Proof.
  unfold flag_set, w16, SYNCED. change (2 ^ 0) with 1. apply Z.bits_inj'. intros n Hn. destruct (Z.lt_ge_cases n 16) as [Hl|Hg].
  - rewrite !Z.mod_pow2_bits_low by lia. rewrite Z.lor_spec, Z.mod_pow2_bits_low by lia. rewrite Z.lor_spec, <- orb_assoc, orb_diag. reflexivity.
  - rewrite !Z.mod_pow2_bits_high by lia. reflexivity.
Qed.
Lemma lookup_settles W s k h b p n s' l : hist W s k h -> klegal k s (QLookup b p n) -> enough W s (QLookup b p n) ->
  h_lookup s b p n = Done (s', l) -> Inv (s_db s') -> pathkeeps (s_db s) (s_db s') -> settled (s_db s') (QLookup b p n).
Proof.
  intros Hh [Hk Hb] Hen E Hi' Hpk. destruct (hist_inv _ _ _ _ Hh) as (HF & HA & HW). unfold enough in Hen. cbn [weight] in Hen.
  pose proof (fi_dr _ _ _ HF) as Hdr. pose proof (dr_inv _ _ _ Hdr) as Hi. pose proof (kdir_is_dir _ _ _ _ HF Hk) as Hdir.
  destruct (h_lookup_total W s k b p n HF Hk ltac:(lia)) as (s2 & l2 & E2 & Hc). rewrite E2 in E. injection E as -> ->.
  assert (HT : TInv (begun s)) by (eapply way_tinv; apply way_begin; exact Hdr).
  cbn [settled]. intros pp Ep. destruct Hc as [Hw|comps st e Hw El He|comps st c t1 t2 Hw El Ee El2|comps c a t2 Hw El _ _ _|comps Hw El _ _|comps Hw El _ _|comps e Hw El _ _|comps e x t1 Hw El He Eu];
    try (rewrite (same_path _ _ _ _ _ Hi Hi' Hpk Hw Ep) in *; rewrite El; try congruence).
  - rewrite (no_path _ _ Hi Hw) in Ep. discriminate.
  - left. unfold valid_name. congruence.
  - assert (Hroom : room (t_db (begun s))) by (eapply way_room; [apply way_begin; exact Hdr|lia]).
    assert (Hnr : ~ reclaimable (t_db (begun s)) (t_refs (begun s)) p) by (rewrite reclaimable_gone; [eapply linked_not_gone; eassumption|exact Hi|apply (dr_refs _ _ _ Hdr)]).
    destruct (emplace_api (begun s) p n _ c t1 HT Hdir Hroom Hnr Ee) as (Hv & HT1 & Hlk & Hga & _). destruct (emplace_flags _ _ _ _ _ _ HT Hdir Hroom Ee) as [_ HF2].
    right. cbn [s_db after set_dbr]. rewrite (lock_db _ _ _ _ El2). pose proof (tinv_db _ HT1) as Hi1.
    apply lookup_Ok in Hlk as (_ & e & He & <-); [|exact Hi1|apply (is_dir_u64 _ _ Hi Hdir)]. exists e. split; [exact He|].
    pose proof Hga as Hg2. apply getattr_Ok in Hg2 as (i & Hx & _). eapply made; try eassumption. eapply HF2; [reflexivity|exact Hx].
  - intros _. cbn [s_db after set_dbr]. destruct (d_treen (t_db t1) !! (p, n)) as [e0|] eqn:He0; [|reflexivity]. exfalso.
    destruct (treen_child _ _ _ _ Hi' He0) as (_ & _ & i & Hx & _). destruct (unlink_name_kn _ _ _ _ _ p n (de_ino e0) (i_attr i) HT Eu) as [_ H2].
    destruct H2 as [_ H2]; [exists e0, i; auto|]. apply H2. reflexivity.
Qed.
Lemma readlink_settles W s k h b x s' l : hist W s k h -> enough W s (QReadlink b x) ->
  h_readlink s b x = Done (s', l) -> Inv (s_db s') -> pathkeeps (s_db s) (s_db s') -> settled (s_db s') (QReadlink b x).
Proof.
  intros Hh Hen E Hi' Hpk. destruct (hist_inv _ _ _ _ Hh) as (HF & HA & HW). pose proof (fi_dr _ _ _ HF) as Hdr. pose proof (dr_inv _ _ _ Hdr) as Hi.
  destruct (h_readlink_total W s k b x HF) as (s2 & l2 & E2 & Hc). rewrite E2 in E. injection E as -> ->.
  assert (HT : TInv (begun s)) by (eapply way_tinv; apply way_begin; exact Hdr).
  cbn [settled]. intros pp Ep. destruct Hc as [Hw|comps link r t1 Hw El Ew|comps link Hw El _|comps e Hw El _|comps e r t1 Hw El He Eu];
    try (rewrite (same_path _ _ _ _ _ Hi Hi' Hpk Hw Ep) in *; rewrite El; try congruence).
  - rewrite (no_path _ _ Hi Hw) in Ep. discriminate.
  - cbn [s_db after set_dbr]. unfold writelink in Ew. change (t_db (begun s)) with (s_db s) in Ew. destruct (d_inodes (s_db s) !! x) as [i0|] eqn:Ex; [|injection Ew as _ <-; change (t_db (begun s)) with (s_db s); congruence].
    destruct (Z.eqb_spec (ftype (a_mode (i_attr i0))) S_IFLNK) as [Hf|Hf]; cbn [negb] in Ew; injection Ew as _ <-.
    + cbn. rewrite !lookup_insert. intros i [= <-] _. split; reflexivity.
    + change (t_db (begun s)) with (s_db s). intros i Hx Hl. congruence.
  - intros _. cbn [s_db after set_dbr] in *. destruct (decide (x = 1)) as [?|Hx1]; [assumption|exfalso].
    destruct (path_spec (t_db t1) x Hi') as [(c' & Hw' & _)|[_ Ep']]; [|congruence].
    destruct (walk_last _ _ _ Hi' Hw') as [[? _]|(c & n & p & e1 & _ & _ & He1 & Hn)]; [contradiction|].
    destruct (inv_treei _ Hi' _ _ _ He1) as (Hc1 & _ & _ & _ & (i & Hix & _) & Htn). rewrite Hn in Htn.
    destruct (unlink_ino_kn _ _ _ _ p n x (i_attr i) HT Eu) as [_ H2]. destruct H2 as [_ H2]; [exists e1, i; auto|]. apply H2. reflexivity.
Qed.
Lemma opendir_settles W s k h b x s' l : hist W s k h -> klegal k s (QOpendir b x) -> enough W s (QOpendir b x) -> lists_once (QOpendir b x) ->
  h_opendir s b x = Done (s', l) -> Inv (s_db s') -> pathkeeps (s_db s) (s_db s') -> settled (s_db s') (QOpendir b x).
Proof.
  intros Hh [Hk Hb] Hen Hon E Hi' Hpk. destruct (hist_inv _ _ _ _ Hh) as (HF & HA & HW). unfold enough in Hen.
  pose proof (fi_dr _ _ _ HF) as Hdr. pose proof (dr_inv _ _ _ Hdr) as Hi. pose proof (kdir_is_dir _ _ _ _ HF Hk) as Hdir.
  destruct (h_opendir_total W s k b x HF Hk ltac:(lia)) as (s2 & l2 & E2 & Hc & _). rewrite E2 in E. injection E as -> ->.
  cbn [settled]. intros pp names2 e2 Ep Eo. destruct Hc as [Hw|comps e Hw El He|comps Hw El|comps names e0 t1 t2 m t3 r t4 Hw El E1 (W1 & t0 & W1' & HS1 & HW1 & HWl) E3 HS2 Hm Hm' E4 E5].
  - rewrite (no_path _ _ Hi Hw) in Ep. discriminate.
  - rewrite (walk_path _ _ _ _ Hi Hw Ep) in Eo. congruence.
  - rewrite (walk_path _ _ _ _ Hi Hw Ep) in Eo. congruence.
  - rewrite (same_path _ _ _ _ _ Hi Hi' Hpk Hw Ep) in *. rewrite El in Eo. injection Eo as <- <-. pose proof (Hon _ _ _ El) as Hnd.
    cbn [s_db after set_dbr] in *. set (bp := backend_path (spell comps)) in *.
    (* the flags *)
    assert (HU1 : unflagged t1 ∅) by (intros n c a i Hn; rewrite lookup_empty in Hn; discriminate).
    assert (HU2 : unflagged t2 m).
    { eapply (sync_unflagged W1 t0 b x bp names 0 t1 ∅ W1'); try eassumption. intros n. rewrite lookup_empty. split; [apply Hm|apply Hm']. }
    pose proof (session_inv _ _ _ HS2) as HI2. destruct (s_dir _ _ _ HI2) as (ix & Hix & _).
    assert (HS3 : session x t3 m) by (eapply ses_flags; eassumption). pose proof (session_inv _ _ _ HS3) as HI3. pose proof (tinv_db _ (s_inv _ _ _ HI3)) as Hi3.
    assert (Hx3 : d_inodes (t_db t3) = <[x := Inode (flag_set (i_flags ix) SYNCED) (i_parent ix) (i_attr ix)]> (d_inodes (t_db t2))).
    { unfold update_flags in E4. rewrite Hix in E4. injection E4 as <-. reflexivity. }
    assert (HU3 : unflagged t3 m).
    { intros n c a i Hn Hc. rewrite Hx3 in Hc. destruct (decide (x = c)) as [<-|Hne]; [exfalso|rewrite lookup_insert_ne in Hc by assumption; eapply HU2; eassumption].
      destruct (s_m _ _ _ HI3 _ _ _ Hn) as (e & He & He2 & _). destruct (treen_child _ _ _ _ Hi3 He) as (Hti & _). rewrite He2 in Hti. destruct (inv_treei _ Hi3 _ _ _ Hti) as (_ & _ & ? & _). lia. }
    assert (Hfl : forall c i, d_inodes (t_db t4) !! c = Some i -> exists j, d_inodes (t_db t3) !! c = Some j /\ i_flags i = i_flags j).
    { intros c i Hc. unfold finish_dir_rewrite in E5. destruct (t_rw t3) as [S|]; injection E5 as _ <-; [|eauto]. cbn [t_db] in Hc. eapply fold_orphan_flags; eassumption. }
    destruct (session_finish x t3 m HS3) as (r' & t4' & E5' & _ & HT4 & _ & _ & _ & Hlk & _ & Hsame & Hga & _). rewrite E5 in E5'. injection E5' as <- <-.
    assert (Hux : u64 x) by apply (is_dir_u64 _ _ Hi Hdir).
    assert (Hst : forall j n st, names !! j = Some n -> b_lstat b j (join_path bp n) = Ok st -> last_stat b bp 0 names n None = Some (from_backend_stat st)).
    { intros j n st Hj Hl. apply listed_iff. exists j, st. split; [exact Hj|]. split; [exact Hl|]. split; [reflexivity|]. intros j' Hlt Hj'. exfalso. pose proof (NoDup_lookup _ _ _ _ Hnd Hj Hj'). lia. }
    split; [|split].
    + intros j n st Hj Hl. assert (Hd : valid_name n \/ ~ valid_name n) by (unfold valid_name; destruct (check_name n true) as [[]|]; [left; reflexivity|right; discriminate]). destruct Hd as [Hv|Hv]; [right|left; exact Hv].
      pose proof (Hm _ Hv) as Hmn. rewrite (Hst _ _ _ Hj Hl) in Hmn. destruct (m !! n) as [[c a]|] eqn:Em; [|discriminate]. injection Hmn as ->.
      pose proof (proj2 (Hlk n c) (ex_intro _ _ Em)) as Hl4. apply lookup_Ok in Hl4 as (_ & e & He & Hc); [|exact Hi'|exact Hux]. exists e. split; [exact He|].
      pose proof (Hga _ _ _ Em) as Hg. rewrite <- Hc in Hg. pose proof Hg as Hg2. apply getattr_Ok in Hg2 as (i & Hi4 & _).
      eapply made; try eassumption. destruct (Hfl _ _ Hi4) as (j3 & Hj3 & ->). rewrite Hc in Hj3. eapply HU3; eassumption.
    + intros n e He. destruct (inv_treen _ Hi' _ _ _ He) as (_ & Hv & _). split; [exact Hv|].
      assert (Hl4 : lookup (t_db t4) x n = Ok (de_ino e)). { apply lookup_Ok; [exact Hi'|exact Hux|]. split; [apply (is_dir_u64 _ _ Hi Hdir)|eauto]. }
      apply Hlk in Hl4 as (a & Em). pose proof (Hm _ Hv) as Hmn. rewrite Em in Hmn. symmetry in Hmn. apply listed_iff in Hmn as (j & st & Hj & Hl & _). eauto.
    + assert (Hex : exists i, d_inodes (t_db t4) !! x = Some i).
      { destruct (Hsame x) as (Hgx & _). assert (Hg3 : getattr (t_db t3) x = Ok (i_attr ix)) by (apply getattr_Ok; rewrite Hx3, lookup_insert; eauto). rewrite Hg3 in Hgx. apply getattr_Ok in Hgx as (i & Hgi & _). eauto. }
      destruct Hex as (i & Hi4). exists i. split; [exact Hi4|]. destruct (Hfl _ _ Hi4) as (j & Hj & Hff). rewrite Hx3, lookup_insert in Hj. injection Hj as <-. rewrite Hff. cbn [i_flags]. apply flag_set_twice.
Qed.

(** ** Asking again *)
(** Whatever happened before: a request that is made again, while the backend answers what it
    answered before and as long as nobody else has changed the cache's database, does not change it
    either, however the reference counts are. *)
Theorem C82_again : forall W s k h q sent s1 s2 sent2 s3, hist W s k h -> klegal k s q -> enough W s q -> asks q -> lists_once q ->
  handles s q sent s1 -> s_db s2 = s_db s1 -> handles s2 q sent2 s3 -> s_db s3 = s_db s1.
Proof.
  intros W s k h q sent s1 s2 sent2 s3 Hh Hl Hen Ha Hon (o & E & Es) Hd (o2 & E2 & _).
  assert (Hi1 : Inv (s_db s1)). { eapply hist_Inv. eapply hist_step; eassumption. }
  pose proof (step_pathkeeps _ _ _ _ _ _ _ Hh Hl Hen E Hi1) as Hpk.
  assert (Hs : settled (s_db s1) q).
  { destruct q; try exact I; cbn [fstep] in E.
    - destruct (h_lookup s b parent name) as [[s' l]| | |] eqn:Eh; try discriminate. cbn [obind] in E. injection E as -> _. eapply lookup_settles; eassumption.
    - destruct (h_readlink s b ino) as [[s' l]| | |] eqn:Eh; try discriminate. cbn [obind] in E. injection E as -> _. eapply readlink_settles; eassumption.
    - destruct (h_opendir s b ino) as [[s' l]| | |] eqn:Eh; try discriminate. cbn [obind] in E. injection E as -> _. eapply opendir_settles; eassumption. }
  rewrite <- Hd in *. eapply settled_again; eassumption.
Qed.
Print Assumptions C82_again.
(** Requests that only read the cache. *)
Definition reads (q : request) : Prop :=
  match q with QGetattr _ | QReaddir _ _ _ | QPlusBegin _ _ | QPlusRun _ _ _ | QReleasedir _ => True | _ => False end.
Lemma reads_asks q : reads q -> asks q.
Proof. destruct q; cbn; auto. Qed.
Lemma reads_settled d q : reads q -> settled d q.
Proof. destruct q; cbn; auto; contradiction. Qed.
(** These never change it at all, even if made the first time. *)
Theorem C82_reads : forall W s k h q sent s1, hist W s k h -> reads q -> handles s q sent s1 -> s_db s1 = s_db s.
Proof.
  intros W s k h q sent s1 Hh Hr (o & E & _). eapply settled_again; [exact (hist_Inv _ _ _ _ Hh)|apply reads_asks, Hr|apply reads_settled, Hr|exact E].
Qed.
Print Assumptions C82_reads.
Lemma settles W s k h q sent s1 : hist W s k h -> klegal k s q -> enough W s q -> lists_once q -> handles s q sent s1 -> Inv (s_db s1) /\ (asks q -> settled (s_db s1) q).
Proof.
  intros Hh Hl Hen Hon (o & E & Es).
  assert (Hi1 : Inv (s_db s1)). { eapply hist_Inv. eapply hist_step; eassumption. }
  pose proof (step_pathkeeps _ _ _ _ _ _ _ Hh Hl Hen E Hi1) as Hpk. split; [exact Hi1|]. intros Ha.
  destruct q; try exact I; cbn [fstep] in E.
  - destruct (h_lookup s b parent name) as [[s' l]| | |] eqn:Eh; try discriminate. cbn [obind] in E. injection E as -> _. eapply lookup_settles; eassumption.
  - destruct (h_readlink s b ino) as [[s' l]| | |] eqn:Eh; try discriminate. cbn [obind] in E. injection E as -> _. eapply readlink_settles; eassumption.
  - destruct (h_opendir s b ino) as [[s' l]| | |] eqn:Eh; try discriminate. cbn [obind] in E. injection E as -> _. eapply opendir_settles; eassumption.
Qed.
(** However often the request is repeated, and whatever else is read in between. *)
Theorem C82_repeated : forall W s k h q sent s1 W1 k1 es W2 s2 k2, hist W s k h -> klegal k s q -> enough W s q -> asks q -> lists_once q ->
  handles s q sent s1 -> goes W1 s1 k1 es W2 s2 k2 -> (forall e, e ∈ es -> ev_q e = q \/ reads (ev_q e)) -> s_db s2 = s_db s1.
Proof.
  intros W s k h q sent s1 W1 k1 es W2 s2 k2 Hh Hl Hen Ha Hon H1 Hg. destruct (settles _ _ _ _ _ _ _ Hh Hl Hen Hon H1) as [Hi Hs]. specialize (Hs Ha). clear - Hi Hs Ha Hg.
  induction Hg as [|W s k q' s' o sent' es W2 s2 k2 _ _ E _ _ IH]; intros He; [reflexivity|].
  assert (Hd : s_db s' = s_db s).
  { destruct (He (Ev s q' sent') ltac:(left)) as [Hq|Hq]; cbn [ev_q] in Hq; [subst q'; eapply settled_again; eassumption|]. eapply settled_again; [exact Hi|apply reads_asks, Hq|apply reads_settled, Hq|exact E]. }
  rewrite <- Hd in Hi, Hs. rewrite IH; auto. intros e He'. apply He. right. exact He'.
Qed.
Print Assumptions C82_repeated.

(** ** The answer *)
Lemma walk_some d comps x : Inv d -> walk d 1 comps x -> exists ty, twalk d comps x ty.
Proof.
  intros Hi Hw. destruct (walk_last _ _ _ Hi Hw) as [[-> ->]|(c & n & p & e & -> & Hw' & He & Hn)]; [exists S_IFDIR; constructor|].
  destruct (inv_treei _ Hi _ _ _ He) as (He2 & _ & _ & Hp & (i & Hx & _) & Htn). rewrite Hn in Htn. exists (ftype (a_mode (i_attr i))). econstructor; [apply walk_twalk; eassumption|]. exists e, i. auto.
Qed.
Lemma path_stays W s k h q s' o comps x : hist W s k h -> klegal k s q -> enough W s q -> fstep s q = Done (s', o) -> Inv (s_db s') -> walk (s_db s) 1 comps x ->
  (forall pre n post ty, comps = pre ++ n :: post -> ~ denies s q pre n ty) -> path (s_db s') x = Done (Ok (spell comps)).
Proof.
  intros Hh Hl Hen E Hi' Hw Hd. pose proof (hist_Inv _ _ _ _ Hh) as Hi. destruct (walk_some _ _ _ Hi Hw) as (ty & Ht).
  destruct (twalk_step _ _ _ _ _ _ _ _ _ _ Hh Hl Hen E Hi' Ht) as [Ht'|(pre & n & post & Ec & Hde)]; [|destruct (Hd _ _ _ _ Ec Hde)].
  pose proof (twalk_walk _ _ _ _ Hi' Ht') as Hw'. destruct (path_spec (s_db s') x Hi') as [(c' & Hc & ->)|[Hno _]]; [|destruct (Hno _ Hw')]. rewrite (walk_unique _ _ _ _ Hi' Hc Hw'). reflexivity.
Qed.
Lemma not_above s comps x pre (n : bytes) post : Inv (s_db s) -> walk (s_db s) 1 comps x -> comps = pre ++ n :: post -> asked s x <> Some (spell pre).
Proof.
  intros Hi Hw -> Ha. pose proof (walk_noslash _ _ _ _ Hi u64_1 Hw) as Hn. apply Forall_app in Hn as [Hn _]. apply asked_spell in Ha; [|assumption..].
  pose proof (walk_unique _ _ _ _ Hi Hw Ha) as E. apply (f_equal length) in E. rewrite app_length in E. cbn in E. lia.
Qed.
Lemma handles_reply s q l s1 s' o : handles s q l s1 -> fstep s q = Done (s', o) -> s1 = s' /\ sent_of o = (l, false).
Proof. intros (o' & E & Es) E'. rewrite E in E'. injection E' as -> ->. auto. Qed.
(** Requests whose answer is a matter of the request alone. *)
Definition plain (q : request) : Prop :=
  match q with QLookup _ _ _ | QGetattr _ | QReadlink _ _ | QOpendir _ _ | QReaddir _ _ _ => True | _ => False end.
(** What was answered without an error is answered the same again. *)
Theorem C82_answer : forall W s k h q r s1 W2 s2 k2 h2 sent2 s3, hist W s k h -> klegal k s q -> enough W s q -> plain q ->
  handles s q [r] s1 -> (forall e, r <> RErr e) -> hist W2 s2 k2 h2 -> enough W2 s2 q -> s_db s2 = s_db s1 -> handles s2 q sent2 s3 -> sent2 = [r].
Proof.
  intros W s k h q r s1 W2 s2 k2 h2 sent2 s3 Hh Hl Hen Hp H1 Hr Hh2 Hen2 Hd H2. destruct (hist_inv _ _ _ _ Hh) as (HF & HA & HW). destruct (hist_inv _ _ _ _ Hh2) as (HF2 & _ & HW2).
  pose proof (dr_inv _ _ _ (fi_dr _ _ _ HF)) as Hi. pose proof (dr_inv _ _ _ (fi_dr _ _ _ HF2)) as Hi2.
  destruct H1 as (o & E & Es). destruct H2 as (o2 & E2 & Es2). pose proof Hi2 as Hi1. rewrite Hd in Hi1.
  assert (Hone : forall l, Some l = o -> l = [r] -> sent_of o = ([r], false)) by (intros; assumption). clear Hone.
  destruct q as [b p n|x n|l|x|b x|b x|x size off|x|id x|id size off|tag|root]; try contradiction; cbn [fstep] in E, E2.
  - destruct (h_lookup s b p n) as [[s' l]| | |] eqn:Eh; try discriminate. cbn [obind] in E. injection E as -> <-.
    destruct (h_lookup s2 b p n) as [[s2' l2]| | |] eqn:Eh2; try discriminate. cbn [obind] in E2. injection E2 as -> <-.
    pose proof Hl as [Hk Hb]. pose proof Hen as Hen0. unfold enough in Hen, Hen2. cbn [weight] in Hen, Hen2. pose proof (kdir_is_dir _ _ _ _ HF Hk) as Hdir.
    assert (Efs : exists o', fstep s (QLookup b p n) = Done (s1, o')) by (cbn [fstep]; rewrite Eh; eexists; reflexivity). destruct Efs as [o' Efs].
    assert (Hset : settled (s_db s1) (QLookup b p n)).
    { apply (lookup_settles W s k h b p n s1 l Hh Hl Hen0 Eh Hi1). exact (step_pathkeeps _ _ _ _ _ _ _ Hh Hl Hen0 Efs Hi1). }
    destruct (h_lookup_total W s k b p n HF Hk ltac:(lia)) as (s' & l' & E & Hc). rewrite E in Eh. injection Eh as -> ->.
    assert (Hst : forall comps, walk (s_db s) 1 comps p -> path (s_db s2) p = Done (Ok (spell comps))).
    { intros comps Hw. rewrite Hd. refine (path_stays _ _ _ _ _ _ _ _ _ Hh Hl Hen0 Efs Hi1 Hw _). intros pre m post ty Ec (_ & Ha & _). exact (not_above _ _ _ _ _ _ Hi Hw Ec Ha). }
    assert (Hlk : forall c a, l = [REntry c a] -> lookup (s_db s1) p n = Ok c /\ getattr (s_db s1) c = Ok a).
    { intros c a ->. destruct (lookup_way W s k b p n _ _ HF Hk ltac:(lia) Hc) as [[_ [? Hx]]|[(t & e & _ & Hx & _)|(t & c' & a' & -> & Hx & _ & Hg & Hlo & _)]]; [discriminate..|]. injection Hx as -> ->. auto. }
    assert (Hlr : l = [r]) by (inversion Hc; subst; cbn [sent_of] in Es; rewrite answer_one in Es; injection Es; congruence). assert (Hr' : forall e, l <> [RErr e]) by (intros e ->; injection Hlr as <-; exact (Hr e eq_refl)). rewrite <- Hlr. clear Hlr Es.
    destruct Hc as [Hw|comps st e Hw El He|comps st c t1 t2 Hw El Ee El2|comps c a t2 Hw El Hlo Hga _|comps Hw El _ _|comps Hw El _ _|comps e Hw El _ _|comps e x t1 Hw El He Eu]; try (destruct (Hr' _ eq_refl)).
    + destruct (Hlk _ _ eq_refl) as [Hlo Hga]. specialize (Hst _ Hw). cbn [settled] in Hset. rewrite <- Hd in Hset, Hlo, Hga. specialize (Hset _ Hst). rewrite El in Hset.
      unfold h_lookup in Eh2. cbn [begin_tx t_db] in Eh2. rewrite Hst in Eh2. cbn [obind] in Eh2. rewrite El in Eh2.
      destruct (emplace_again (begin_tx (s_db s2) (s_refs s2)) p n st Hset) as (r2 & rw & Ee2 & _ & Hv). unfold begin_tx in Ee2, Eh2. cbn [t_db t_refs t_hooks] in Ee2. rewrite Ee2 in Eh2. cbn [obind] in Eh2.
      assert (Hup : u64 p) by apply (is_dir_u64 _ _ Hi Hdir). apply lookup_Ok in Hlo as (_ & e & He & Hec); [|exact Hi2|exact Hup].
      assert (Hvn : valid_name n) by (apply (inv_treen _ Hi2 _ _ _ He)). destruct (Hv Hvn) as (e' & He' & -> & _). cbn [begin_tx t_db] in He'. rewrite He in He'. injection He' as <-. rewrite Hec in Eh2.
      assert (Hin : d_inodes (s_db s2) !! c <> None) by (apply getattr_Ok in Hga as (ci & Hci & _); congruence).
      destruct (lock_present (s_db s2) (s_refs s2) [] rw c W2 (fi_dr _ _ _ HF2) ltac:(lia) Hin) as (t4 & E4 & _). rewrite E4 in Eh2. cbn [obind] in Eh2. injection Eh2 as _ <-.
      cbn [sent_of] in Es2. rewrite answer_one in Es2. injection Es2 as <-. reflexivity.
    + destruct (Hlk _ _ eq_refl) as [Hlo1 Hga1]. specialize (Hst _ Hw). rewrite <- Hd in Hlo1, Hga1.
      unfold h_lookup in Eh2. cbn [begin_tx t_db] in Eh2. rewrite Hst in Eh2. cbn [obind] in Eh2. rewrite El in Eh2. rewrite Z.eqb_refl in Eh2. unfold begin_tx in Eh2. cbn [t_db] in Eh2. rewrite Hlo1, Hga1 in Eh2.
      assert (Hin : d_inodes (s_db s2) !! c <> None) by (apply getattr_Ok in Hga1 as (ci & Hci & _); congruence).
      destruct (lock_present (s_db s2) (s_refs s2) [] None c W2 (fi_dr _ _ _ HF2) ltac:(lia) Hin) as (t4 & E4 & _). rewrite E4 in Eh2. cbn [obind] in Eh2. injection Eh2 as _ <-.
      cbn [sent_of] in Es2. rewrite answer_one in Es2. injection Es2 as <-. reflexivity.
  - unfold h_getattr in E, E2. rewrite Hd in E2. destruct (getattr (s_db s) x) as [a|e] eqn:Eg; cbn [obind] in E; injection E as <- <-; rewrite Eg in E2; cbn [obind] in E2; injection E2 as _ <-; cbn [sent_of] in *; rewrite answer_one in *; congruence.
  - destruct (h_readlink s b x) as [[s' l]| | |] eqn:Eh; try discriminate. cbn [obind] in E. injection E as -> <-.
    destruct (h_readlink s2 b x) as [[s2' l2]| | |] eqn:Eh2; try discriminate. cbn [obind] in E2. injection E2 as -> <-.
    assert (Efs : exists o', fstep s (QReadlink b x) = Done (s1, o')) by (cbn [fstep]; rewrite Eh; eexists; reflexivity). destruct Efs as [o' Efs].
    destruct (h_readlink_total W s k b x HF) as (s' & l' & E & Hc). rewrite E in Eh. injection Eh as -> ->.
    assert (Hlr : l = [r]) by (inversion Hc; subst; cbn [sent_of] in Es; rewrite answer_one in Es; injection Es; congruence). assert (Hr' : forall e, l <> [RErr e]) by (intros e ->; injection Hlr as <-; exact (Hr e eq_refl)). rewrite <- Hlr. clear Hlr Es.
    assert (Hst : forall comps link, walk (s_db s) 1 comps x -> b_readlink b (backend_path (spell comps)) = Ok link -> path (s_db s2) x = Done (Ok (spell comps))).
    { intros comps link Hw El. rewrite Hd. refine (path_stays _ _ _ _ _ _ _ _ _ Hh Hl Hen Efs Hi1 Hw _). intros pre m post ty Ec (Ha & e & Hbe & _). rewrite (asked_walk _ _ _ Hi Hw) in Ha. injection Ha as Ha. rewrite <- Ha in Hbe. congruence. }
    destruct Hc as [Hw|comps link r1 t1 Hw El Ew|comps link Hw El Erl|comps e Hw El _|comps e r1 t1 Hw El He Eu]; try (destruct (Hr' _ eq_refl)).
    + specialize (Hst _ _ Hw El). unfold h_readlink in Eh2. cbn [begin_tx t_db] in Eh2. rewrite Hst in Eh2. cbn [obind] in Eh2. rewrite El in Eh2.
      destruct (writelink _ x link) as [[r4 t4]| | |]; try discriminate. cbn [obind] in Eh2. injection Eh2 as _ <-. cbn [sent_of] in Es2. rewrite answer_one in Es2. injection Es2 as <-. reflexivity.
    + unfold h_readlink in Eh2. cbn [begin_tx t_db] in Eh2. rewrite Hd in Eh2.
      destruct (path_spec (s_db s) x Hi) as [(c' & Hw' & Ep)|[Hno _]]; [|destruct (Hno _ Hw)]. rewrite Ep in Eh2. cbn [obind] in Eh2. rewrite (walk_unique _ _ _ _ Hi Hw' Hw), El in Eh2. rewrite Z.eqb_refl, Erl in Eh2.
      injection Eh2 as _ <-. cbn [sent_of] in Es2. rewrite answer_one in Es2. injection Es2 as <-. reflexivity.
  - destruct (h_opendir s b x) as [[s' l]| | |] eqn:Eh; try discriminate. cbn [obind] in E. injection E as -> <-.
    destruct (h_opendir s2 b x) as [[s2' l2]| | |] eqn:Eh2; try discriminate. cbn [obind] in E2. injection E2 as -> <-.
    assert (Efs : exists o', fstep s (QOpendir b x) = Done (s1, o')) by (cbn [fstep]; rewrite Eh; eexists; reflexivity). destruct Efs as [o' Efs].
    pose proof Hl as [Hk Hb]. destruct (h_opendir_total W s k b x HF Hk) as (s' & l' & E & Hc & _). { unfold enough in Hen. lia. } rewrite E in Eh. injection Eh as -> ->.
    assert (Hlr : l = [r]) by (inversion Hc; subst; cbn [sent_of] in Es; rewrite answer_one in Es; injection Es; congruence). assert (Hr' : forall e, l <> [RErr e]) by (intros e ->; injection Hlr as <-; exact (Hr e eq_refl)). rewrite <- Hlr. clear Hlr Es.
    assert (Hst : forall comps, walk (s_db s) 1 comps x -> path (s_db s2) x = Done (Ok (spell comps))).
    { intros comps Hw. rewrite Hd. refine (path_stays _ _ _ _ _ _ _ _ _ Hh Hl Hen Efs Hi1 Hw _). intros pre m post ty Ec (Ha & _). exact (not_above _ _ _ _ _ _ Hi Hw Ec Ha). }
    destruct Hc as [Hw|comps e Hw El He|comps Hw El|comps names e0 t1 t2 m t3 r3 t4 Hw El E1 _ E3 HS2 Hm Hm' E4 E5]; try (destruct (Hr' _ eq_refl)).
    + specialize (Hst _ Hw). unfold h_opendir in Eh2. cbn [begin_tx t_db] in Eh2. rewrite Hst in Eh2. cbn [obind] in Eh2. rewrite El in Eh2. rewrite Z.eqb_refl in Eh2.
      injection Eh2 as _ <-. cbn [sent_of] in Es2. rewrite answer_one in Es2. injection Es2 as <-. reflexivity.
    + specialize (Hst _ Hw). unfold h_opendir in Eh2. cbn [begin_tx t_db] in Eh2. rewrite Hst in Eh2. cbn [obind] in Eh2. rewrite El in Eh2.
      destruct (start_dir_rewrite _ x) as [[r5 t5]| | |]; try discriminate. cbn [obind] in Eh2. destruct (sync_entries _ _ _ _ _ _) as [t6| | |]; try discriminate. cbn [obind] in Eh2.
      destruct (update_flags _ _ _ _) as [[r7 t7]| | |]; try discriminate. cbn [obind] in Eh2. destruct (finish_dir_rewrite t7) as [[r8 t8]| | |]; try discriminate. cbn [obind] in Eh2.
      injection Eh2 as _ <-. cbn [sent_of] in Es2. rewrite answer_one in Es2. injection Es2 as <-. reflexivity.
  - destruct (h_readdir s x size off) as [[s' l]| | |] eqn:Eh; try discriminate. cbn [obind] in E. injection E as -> <-. pose proof (readdir_db _ _ _ _ _ _ Eh) as Hd1.
    destruct (h_readdir s2 x size off) as [[s2' l2]| | |] eqn:Eh2; try discriminate. cbn [obind] in E2. injection E2 as -> <-. unfold h_readdir in *. rewrite Hd, Hd1 in Eh2.
    destruct (readdir_loop _ _ _ _ _ _ _) as [[[[e a] bf] ts]| | |]; try discriminate. cbn [obind] in *. injection Eh as _ <-. injection Eh2 as _ <-. congruence.
Qed.
Print Assumptions C82_answer.

(** *** Samples *)
(** Finding "d" and listing the root both write to the empty cache's database; asked again they do not. *)
Definition c82_db (s : fstate) := (d_next (s_db s), map_to_list (d_inodes (s_db s)), map_to_list (d_treen (s_db s)), map_to_list (d_treei (s_db s)), map_to_list (d_links (s_db s))).
Lemma c82_db_differ s s' : bool_decide (c82_db s = c82_db s') = false -> s_db s' <> s_db s.
Proof. intros H E. apply bool_decide_eq_false in H. apply H. unfold c82_db. rewrite E. reflexivity. Qed.
#[local] Instance reply_eq : EqDecision reply.
Proof. solve_decision. Defined.
Definition sent_is (s : fstate) (q : request) (l : list reply) : bool := bool_decide (out s q = Some (l, false)).
Lemma sent_is_ok s q l : sent_is s q l = true -> handles s q l (next s q).
Proof. intros H. apply bool_decide_eq_true in H. destruct (out_ok _ _ _ H) as (o & E & Eo). exists o. auto. Qed.
Definition enoughb (W : Z) (s : fstate) (q : request) : bool := W + weight s q + 3 <? 2 ^ 63.
Lemma enoughb_ok W s q : enoughb W s q = true -> enough W s q.
Proof. apply Z.ltb_lt. Qed.
Lemma online_once x : lists_once (QOpendir online x).
Proof.
  intros p names e E. cbn in E. destruct (decide ([47] = p)); [|destruct (decide (pD = p)); [|discriminate]]; injection E as <- _; unfold nD, nF, nL, nG; repeat (apply NoDup_cons; split; [set_solver|]); apply NoDup_nil; exact I.
Qed.
(** a step that writes: [qs] before, then [q] *)
Definition c82_writes (qs : list request) (q : request) (l : list reply) : bool :=
  klegalb (sK qs) (sS qs) q && enoughb (sW qs) (sS qs) q && sent_is (sS qs) q l && negb (bool_decide (c82_db (sS qs) = c82_db (next (sS qs) q))).
Definition writes (qs : list request) (q : request) (l : list reply) : Prop :=
  hist (sW qs) (sS qs) (sK qs) (sH qs) /\ klegal (sK qs) (sS qs) q /\ enough (sW qs) (sS qs) q /\ handles (sS qs) q l (next (sS qs) q) /\ s_db (next (sS qs) q) <> s_db (sS qs).
Lemma c82_writes_ok qs q l : Forall q_ok qs -> q_ok q -> c82_writes qs q l = true -> writes qs q l.
Proof.
  intros Hq Hq1 H. unfold c82_writes in H. rewrite !andb_true_iff, negb_true_iff in H. destruct H as [[[H1 H2] H3] H4].
  split; [apply sess_hist, Hq|]. split; [apply klegalb_ok; assumption|]. split; [apply enoughb_ok, H2|]. split; [apply sent_is_ok, H3|apply c82_db_differ, H4].
Qed.
Definition q82 : list request := [QLookup online 1 nD; QLookup online 1 nL].
Example C82_sample :
  (* a lookup that finds something new, a listing, a link that is read: each writes; each can be asked again *)
  writes [] (QLookup online 1 nD) [REntry 2 (from_backend_stat dirA)] /\
  writes q82 (QOpendir online 2) [ROpen] /\
  writes q82 (QReadlink online 3) [RReadlink pF] /\
  (let s1 := next (sS q82) (QOpendir online 2) in exists s3, s_db s1 <> s_db (sS q82) /\ handles s1 (QOpendir online 2) [ROpen] s3 /\ s_db s3 = s_db s1) /\
  lists_once (QOpendir online 2) /\ asks (QOpendir online 2).
Proof.
  assert (H1 : c82_writes q82 (QOpendir online 2) [ROpen] = true) by (vm_compute; reflexivity).
  apply c82_writes_ok in H1; [|qs_ok|exact online_ok].
  split; [apply c82_writes_ok; [apply Forall_nil; exact I|exact online_ok|vm_compute; reflexivity]|]. split; [exact H1|]. split; [apply c82_writes_ok; [qs_ok|exact online_ok|vm_compute; reflexivity]|]. split; [|split; [apply online_once|exact I]].
  destruct H1 as (A & B & C & D & E). cbn zeta.
  assert (H2 : handles (next (sS q82) (QOpendir online 2)) (QOpendir online 2) [ROpen] (next (next (sS q82) (QOpendir online 2)) (QOpendir online 2))) by (apply sent_is_ok; vm_compute; reflexivity).
  eexists. split; [exact E|]. split; [exact H2|]. eapply C82_again; [exact A|exact B|exact C|exact I|apply online_once|exact D|reflexivity|exact H2].
Qed.
(** A name that is listed twice, with two types, gets new inodes each time. *)
Definition twice : backend := Backend (fun i _ => if (i =? 0)%nat then Ok (fileA 1) else Ok linkA) (fun _ => Err ENOENT) (fun _ => Ok ([nF; nF], 0)).
Lemma twice_ok : backend_ok twice.
Proof. split; cbn; [|discriminate]. intros i p st E. destruct (i =? 0)%nat; injection E as <-; [apply fileA_ok; unfold u64; lia|exact linkA_ok]. Qed.
Theorem C82_once_needed : exists W s k h q s1 s2, hist W s k h /\ klegal k s q /\ enough W s q /\ asks q /\ ~ lists_once q /\
  handles s q [ROpen] s1 /\ handles s1 q [ROpen] s2 /\ s_db s2 <> s_db s1.
Proof.
  assert (H1 : c82_writes [] (QOpendir twice 1) [ROpen] = true) by (vm_compute; reflexivity).
  apply c82_writes_ok in H1; [|apply Forall_nil; exact I|exact twice_ok]. destruct H1 as (A & B & C & D & E).
  exists (sW []), (sS []), (sK []), (sH []), (QOpendir twice 1), (next (sS []) (QOpendir twice 1)), (next (next (sS []) (QOpendir twice 1)) (QOpendir twice 1)).
  split; [exact A|]. split; [exact B|]. split; [exact C|]. split; [exact I|]. split; [|split; [exact D|split; [apply sent_is_ok; vm_compute; reflexivity|apply c82_db_differ; vm_compute; reflexivity]]].
  intros H. specialize (H [47] [nF; nF] 0 eq_refl). apply NoDup_cons in H as [H _]. apply H. left.
Qed.
Print Assumptions C82_once_needed.
(** A readlink that fails takes the link away: asked again it fails otherwise. *)
Definition unread : backend := finite [(pL, linkA)] [] [].
Definition unreadable : backend := Backend (b_lstat unread) (fun _ => Err EIO) (b_opendir unread).
Lemma unreadable_ok : backend_ok unreadable.
Proof. assert (H : backend_ok unread) by (unfold unread; finite_oks). split; cbn; [exact (proj1 H)|discriminate]. Qed.
Definition q82l : list request := [QLookup unreadable 1 nL].
Theorem C82_error_needed : exists W s k h q s1 s2, hist W s k h /\ klegal k s q /\ enough W s q /\ plain q /\
  handles s q [RErr EIO] s1 /\ handles s1 q [RErr ENOENT] s2.
Proof.
  assert (H1 : c82_writes q82l (QReadlink unreadable 2) [RErr EIO] = true) by (vm_compute; reflexivity).
  apply c82_writes_ok in H1; [|apply Forall_cons; split; [exact unreadable_ok|apply Forall_nil; exact I]|exact unreadable_ok]. destruct H1 as (A & B & C & D & E).
  exists (sW q82l), (sS q82l), (sK q82l), (sH q82l), (QReadlink unreadable 2), (next (sS q82l) (QReadlink unreadable 2)), (next (next (sS q82l) (QReadlink unreadable 2)) (QReadlink unreadable 2)).
  split; [exact A|]. split; [exact B|]. split; [exact C|]. split; [exact I|]. split; [exact D|apply sent_is_ok; vm_compute; reflexivity].
Qed.
Print Assumptions C82_error_needed.
(** Listed; then other things are read and a reference is given back; listed again. *)
Definition same_db (d d' : db) : bool :=
  bool_decide (d_next d = d_next d') && bool_decide (d_inodes d = d_inodes d') && bool_decide (d_treei d = d_treei d') &&
  bool_decide (d_treen d = d_treen d') && bool_decide (d_orphans d = d_orphans d') && bool_decide (d_links d = d_links d').
Lemma same_db_ok d d' : same_db d d' = true -> d = d'.
Proof.
  unfold same_db. rewrite !andb_true_iff. intros [[[[[H1 H2] H3] H4] H5] H6]. apply bool_decide_eq_true in H1, H2, H3, H4, H5, H6. destruct d, d'. cbn in *. congruence.
Qed.
Definition q82b : list request := [QLookup online 1 nD; QLookup online 1 nL; QOpendir online 2; QReaddir 2 4096 0; QForget 2 1; QGetattr 1].
Example C82_answer_sample : let q := QOpendir online 2 in
  writes q82 q [ROpen] /\ hist (sW q82b) (sS q82b) (sK q82b) (sH q82b) /\ s_db (sS q82b) = s_db (next (sS q82) q) /\ s_refs (sS q82b) <> s_refs (next (sS q82) q) /\
  enough (sW q82b) (sS q82b) q /\ exists s3, handles (sS q82b) q [ROpen] s3.
Proof.
  split; [apply c82_writes_ok; [qs_ok|exact online_ok|vm_compute; reflexivity]|]. split; [apply sess_hist; qs_ok|]. split; [apply same_db_ok; vm_compute; reflexivity|].
  split; [apply (bool_decide_eq_false_1 _); vm_compute; reflexivity|]. split; [apply enoughb_ok; vm_compute; reflexivity|]. eexists. apply sent_is_ok. vm_compute. reflexivity.
Qed.
