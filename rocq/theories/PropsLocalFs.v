(** Properties C59 and C60: the file system on the local backend. *)
From Verif Require Export LocalFs PropsFs PropsLocal.

(** ** Specification *)
(** the directory that is mounted: "/srv/data", without a slash at the end *)
Definition root_ok (root : bytes) : Prop := root <> [] /\ List.last root 0 <> 47 /\ 0 ∉ root.
(** what a host can answer *)
Definition host_ok (H : host) : Prop :=
  (forall i p st, os_lstat (h_os H i) p = Ok st -> attrs_ok st) /\
  (forall p t, os_readlink (h_os H 0) p = Ok t -> Z.of_nat (length t) < 2 ^ 64) /\
  (forall p, Forall dname (fst (h_names H p))).
(** what the kernel asks, as in FsClean.v *)
Definition ltame (k : kst) (q : lrequest) : Prop :=
  match q with
  | LLookup p n => plain n /\ dname n
  | LReadlink x => x = ROOT_INO \/ 0 < kcount k x
  | LOpendir _ => True
  | LLocal q => backend_of q = None /\ match q with QPlusBegin _ x => kdir k x | _ => True end
  end.
(** Histories of the mounted file system; every request finds its own host. *)
Inductive lhist (root : bytes) : Z -> fstate -> kst -> list (host * lrequest) -> list event -> Prop :=
| lh_open a d r : attrs_ok a -> open_cache a db_empty = Done (d, r) -> lhist root 0 (Fst d r ∅) k0 [] []
| lh_step W s k l h H q s' o sent : lhist root W s k l h -> host_ok H -> klegal k s (on root H q) -> ltame k q -> enough W s (on root H q) ->
    lstep root s H q = Done (s', o) -> sent_of o = (sent, false) ->
    lhist root (W + weight s (on root H q)) s' (kstep k (on root H q) sent) (l ++ [(H, q)]) (h ++ [Ev s (on root H q) sent]).
(** [q] is answered by sending [sent] *)
Definition lhandles (root : bytes) (s : fstate) (H : host) (q : lrequest) (sent : list reply) (s' : fstate) : Prop :=
  exists o, lstep root s H q = Done (s', o) /\ sent_of o = (sent, false).

(** ** The model's steps *)
Lemma lstep_fstep root s H q x : lstep root s H q = Done x -> fstep s (on root H q) = Done x.
Proof.
  destruct q; cbn [lstep]; auto. destruct (path _ _) as [[pp|]| | |]; cbn [obind]; auto; try discriminate. destruct (local_readlink _ _ _); cbn [obind]; auto; discriminate.
Qed.
Lemma lstep_same root s H q : (forall x, q <> LReadlink x) -> lstep root s H q = fstep s (on root H q).
Proof. destruct q; cbn [lstep]; auto. intros Hx. destruct (Hx ino). reflexivity. Qed.
Lemma local_lstat_ok root H : host_ok H -> backend_ok (local_backend root H).
Proof.
  intros (H1 & H2 & _). split; cbn [b_lstat b_readlink local_backend].
  - intros i p st. unfold local_lstat. destruct (map_path root p); [apply H1|discriminate].
  - intros p l. unfold local_readlink. destruct (map_path root p) as [fp|]; [|discriminate]. destruct (os_lstat _ _) as [st|]; [|discriminate]. destruct (os_readlink _ _) as [t|] eqn:Et; [|discriminate].
    intros E. injection E as <-. apply H2 in Et. rewrite firstn_length. lia.
Qed.
Lemma ltame_tame root H k q : host_ok H -> ltame k q -> tame k (on root H q).
Proof.
  intros (_ & _ & Hn) Ht. destruct q as [p n|x|x|q]; cbn [on tame ltame] in *; try exact Ht.
  - cbn [b_opendir local_backend]. intros p names e. unfold local_listing. destruct (local_opendir _ _ _); [|discriminate]. destruct (map_path root p) as [fp|]; [|discriminate]. pose proof (Hn (cstr fp)) as Hf. destruct (h_names H (cstr fp)). intros E. injection E as <- _. exact Hf.
  - destruct Ht as [Hb Ht]. destruct q; try exact I; try discriminate Hb; exact Ht.
Qed.
Lemma lhist_thist root W s k l h : lhist root W s k l h -> thist W s k h.
Proof. induction 1; [eapply thist_open; eassumption|]. eapply thist_step; try eassumption; [apply ltame_tame; assumption|apply lstep_fstep; eassumption]. Qed.

(** ** paths *)
Definition clean (comps : list bytes) : Prop := Forall (fun n => plain n /\ dname n) comps.
Lemma spell_snoc comps n : spell (comps ++ [n]) = spell comps ++ [47] ++ n.
Proof. unfold spell. rewrite map_app, concat_app. cbn. rewrite app_nil_r. reflexivity. Qed.
Lemma spell_no_nul comps : Forall dname comps -> 0 ∉ spell comps.
Proof.
  unfold spell. induction 1 as [|n comps (_ & _ & Hn) _ IH]; cbn; [apply not_elem_of_nil|]. intros Hin. apply elem_of_cons in Hin as [?|Hin]; [discriminate|]. apply elem_of_app in Hin as [?|?]; auto.
Qed.
Lemma spell_rel n comps : dname n -> exists inner, spell (n :: comps) = 47 :: inner /\ is_absolute inner = false.
Proof. intros (Hn & Hs & _). exists (n ++ spell comps). split; [reflexivity|]. destruct n as [|c n]; [congruence|]. cbn. apply Z.eqb_neq. intros ->. apply Hs. left. Qed.
Lemma map_spell root n comps : dname n -> map_path root (spell (n :: comps)) = Ok (append_path root (n ++ spell comps)).
Proof. intros Hn. destruct (spell_rel n comps Hn) as (inner & E & Ha). injection E as E. unfold spell in *. cbn [map concat app] in *. unfold map_path. cbn [Z.eqb]. rewrite E, Ha. reflexivity. Qed.
Lemma append_plain root b : root_ok root -> append_path root b = root ++ [47] ++ b.
Proof. intros (Hr & Hl & _). unfold append_path. destruct root; [congruence|]. apply Z.eqb_neq in Hl. rewrite Hl. reflexivity. Qed.
(** the host's path of "/c1/c2/.." is "root/c1/c2/..", the one of "/" is "root/" *)
Lemma map_clean root comps : root_ok root -> Forall dname comps -> map_path root (backend_path (spell comps)) = Ok (root ++ backend_path (spell comps)) /\ cstr (root ++ backend_path (spell comps)) = root ++ backend_path (spell comps).
Proof.
  intros Hr Hc. split.
  - destruct Hc as [|n comps Hn Hc]; [cbn; rewrite append_plain by exact Hr; reflexivity|]. change (backend_path (spell (n :: comps))) with (spell (n :: comps)). rewrite map_spell, append_plain by assumption. reflexivity.
  - apply cstr_id. intros Hin. apply elem_of_app in Hin as [Hin|Hin]; [apply Hr, Hin|]. pose proof (spell_no_nul _ Hc) as Hn. unfold backend_path in Hin. destruct (spell comps); [unfold SLASH in Hin; apply elem_of_list_singleton in Hin; discriminate|auto].
Qed.
Lemma map_child root comps n : root_ok root -> Forall dname comps -> dname n -> map_path root (spell comps ++ [47] ++ n) = Ok (root ++ spell comps ++ [47] ++ n) /\ cstr (root ++ spell comps ++ [47] ++ n) = root ++ spell comps ++ [47] ++ n.
Proof.
  intros Hr Hc Hn. rewrite <- spell_snoc. pose proof (map_clean root (comps ++ [n]) Hr ltac:(apply Forall_app; split; [exact Hc|constructor; [exact Hn|constructor]])) as E.
  assert (Hb : backend_path (spell (comps ++ [n])) = spell (comps ++ [n])) by (rewrite spell_snoc; destruct (spell comps); reflexivity). rewrite Hb in E. exact E.
Qed.
Lemma join_spell comps n : Forall dname comps -> join_path (backend_path (spell comps)) n = spell comps ++ [47] ++ n.
Proof.
  intros Hc. destruct Hc as [|m comps Hm Hc]; [reflexivity|]. unfold join_path. change (backend_path (spell (m :: comps))) with (spell (m :: comps)). destruct (Nat.ltb_spec 1 (length (spell (m :: comps)))) as [|Hlt]; [reflexivity|]. exfalso.
  unfold spell in Hlt. cbn in Hlt. destruct Hm as [Hm _]. destruct m; [congruence|]. cbn in Hlt. lia.
Qed.
Lemma clean_dname comps : clean comps -> Forall dname comps.
Proof. intros H. eapply Forall_impl; [exact H|]. intros n [_ Hn]. exact Hn. Qed.
Lemma lasked root W s k l h x pp : lhist root W s k l h -> x = ROOT_INO \/ 0 < kcount k x -> asked s x = Some pp -> exists comps, pp = spell comps /\ clean comps.
Proof. intros Hh. apply clean_asked with (1 := lhist_thist _ _ _ _ _ _ Hh). Qed.
Lemma kdir_held k x : kdir k x -> x = ROOT_INO \/ 0 < kcount k x.
Proof. intros [?|[_ ?]]; auto. Qed.

(** ** C59: what the user of the mount sees is what the host has *)
(** lookup: the host's attributes of "root/path/name" *)
Theorem C59_lookup : forall root W s k l h H p n pp st, lhist root W s k l h -> root_ok root -> host_ok H -> kdir k p -> plain n -> dname n -> Z.of_nat (length n) <= 503 -> W + 5 < 2 ^ 63 ->
  asked s p = Some pp -> os_lstat (h_os H 0) (root ++ pp ++ [47] ++ n) = Ok st ->
  exists c s', lhandles root s H (LLookup p n) [REntry c (from_backend_stat st)] s' /\ lookup (s_db s') p n = Ok c /\ getattr (s_db s') c = Ok (from_backend_stat st).
Proof.
  intros root W s k l h H p n pp st Hh Hr Ho Hk Hp Hd Hlen HW Ha Hst. destruct (lasked _ _ _ _ _ _ _ _ Hh (kdir_held _ _ Hk) Ha) as (comps & -> & Hc). apply clean_dname in Hc.
  destruct (map_child root comps n Hr Hc Hd) as [E1 E2].
  destruct (C34_connected W s k h (local_backend root H) p n (spell comps) st (thist_hist _ _ _ _ (lhist_thist _ _ _ _ _ _ Hh)) (conj Hk (local_lstat_ok root H Ho)) ltac:(unfold enough; cbn [weight]; lia) Ha) as (c & s' & Hs & Hl & Hg & _).
  - cbn [b_lstat local_backend]. unfold local_lstat. rewrite E1, E2. exact Hst.
  - split; [exact Hlen|]. destruct Hd as (_ & ? & ?). auto.
  - exists c, s'. split; [|auto]. destruct Hs as (o & E & Es). exists o. split; [rewrite lstep_same by discriminate; exact E|exact Es].
Qed.
Print Assumptions C59_lookup.
(** an error of lstat is passed on, and the entry is forgotten *)
Theorem C59_lookup_error : forall root W s k l h H p n pp e, lhist root W s k l h -> root_ok root -> host_ok H -> kdir k p -> plain n -> dname n -> W + 5 < 2 ^ 63 ->
  asked s p = Some pp -> os_lstat (h_os H 0) (root ++ pp ++ [47] ++ n) = Err e -> e <> ENOTCONN ->
  exists s', lhandles root s H (LLookup p n) [RErr e] s' /\ forall c, lookup (s_db s') p n <> Ok c.
Proof.
  intros root W s k l h H p n pp e Hh Hr Ho Hk Hp Hd HW Ha Hst Hne. destruct (lasked _ _ _ _ _ _ _ _ Hh (kdir_held _ _ Hk) Ha) as (comps & -> & Hc). apply clean_dname in Hc.
  destruct (map_child root comps n Hr Hc Hd) as [E1 E2].
  destruct (C34_connected_error W s k h (local_backend root H) p n (spell comps) e (thist_hist _ _ _ _ (lhist_thist _ _ _ _ _ _ Hh)) (conj Hk (local_lstat_ok root H Ho)) ltac:(unfold enough; cbn [weight]; lia) Ha) as (s' & Hs & Hl).
  - cbn [b_lstat local_backend]. unfold local_lstat. rewrite E1, E2. exact Hst.
  - exact Hne.
  - exists s'. split; [|exact Hl]. destruct Hs as (o & E & Es). exists o. split; [rewrite lstep_same by discriminate; exact E|exact Es].
Qed.
(** the host is not reachable (say, a dead network mount below the root): the last thing that was heard about
    the entry *)
Theorem C59_offline : forall root W s k l h H p n pp, lhist root W s k l h -> root_ok root -> host_ok H -> kdir k p -> plain n -> dname n -> Z.of_nat (length n) <= 503 -> W + 5 < 2 ^ 63 ->
  asked s p = Some pp -> os_lstat (h_os H 0) (root ++ pp ++ [47] ++ n) = Err ENOTCONN ->
  exists s' r, lhandles root s H (LLookup p n) [r] s' /\ s_db s' = s_db s /\
    match belief h p n with
    | Some a => exists c, r = REntry c a /\ lookup (s_db s) p n = Ok c
    | None => r = RErr (match test_flag (s_db s) p SYNCED with Ok true => ENOENT | _ => EIO end)
    end.
Proof.
  intros root W s k l h H p n pp Hh Hr Ho Hk Hp Hd Hlen HW Ha Hst. destruct (lasked _ _ _ _ _ _ _ _ Hh (kdir_held _ _ Hk) Ha) as (comps & -> & Hc). apply clean_dname in Hc.
  destruct (map_child root comps n Hr Hc Hd) as [E1 E2].
  destruct (C35_offline W s k h (local_backend root H) p n (spell comps) (thist_hist _ _ _ _ (lhist_thist _ _ _ _ _ _ Hh)) (conj Hk (local_lstat_ok root H Ho)) ltac:(unfold enough; cbn [weight]; lia) Ha) as (s' & r & Hs & Hl).
  - cbn [b_lstat local_backend]. unfold local_lstat. rewrite E1, E2. exact Hst.
  - split; [exact Hlen|]. destruct Hd as (_ & ? & ?). auto.
  - exists s', r. split; [|exact Hl]. destruct Hs as (o & E & Es). exists o. split; [rewrite lstep_same by discriminate; exact E|exact Es].
Qed.
(** opendir: the cache has the names the host lists and, for each, the attributes of its last
    successful lstat; names whose lstat fails are left out *)
Definition host_listed (H : host) (dir : bytes) (names : list bytes) (n : bytes) (a : attrs) : Prop :=
  exists i st, names !! i = Some n /\ os_lstat (h_os H i) (dir ++ [47] ++ n) = Ok st /\ a = from_backend_stat st /\
    forall j, (i < j)%nat -> names !! j = Some n -> exists e, os_lstat (h_os H j) (dir ++ [47] ++ n) = Err e.
Theorem C59_opendir : forall root W s k l h H x pp fd names e, lhist root W s k l h -> root_ok root -> host_ok H -> kdir k x -> W + Z.of_nat (length names) + 3 < 2 ^ 63 ->
  asked s x = Some pp -> os_opendir (h_os H 0) (root ++ backend_path pp) = Ok fd -> h_names H (root ++ backend_path pp) = (names, e) ->
  exists s', lhandles root s H (LOpendir x) [ROpen] s' /\ test_flag (s_db s') x SYNCED = Ok true /\
    forall n a, (exists c, lookup (s_db s') x n = Ok c /\ getattr (s_db s') c = Ok a) <-> Z.of_nat (length n) <= 503 /\ host_listed H (root ++ pp) names n a.
Proof.
  intros root W s k l h H x pp fd names e Hh Hr Ho Hk HW Ha Hfd Hn. destruct (lasked _ _ _ _ _ _ _ _ Hh (kdir_held _ _ Hk) Ha) as (comps & -> & Hc). apply clean_dname in Hc.
  destruct (map_clean root comps Hr Hc) as [E1 E2].
  assert (Eo : b_opendir (local_backend root H) (backend_path (spell comps)) = Ok (names, 0)).
  { cbn [b_opendir local_backend]. unfold local_listing, local_opendir. rewrite E1, E2, Hfd, Hn. reflexivity. }
  destruct (C41_sync W s k h (local_backend root H) x (spell comps) names 0 (thist_hist _ _ _ _ (lhist_thist _ _ _ _ _ _ Hh)) (conj Hk (local_lstat_ok root H Ho))) as (s' & Hs & Hf & Hl); [|exact Ha|exact Eo|].
  - unfold enough. cbn [weight]. unfold asked in Ha. destruct (path (s_db s) x) as [[pp|]| | |]; try discriminate Ha. injection Ha as ->. rewrite Eo. lia.
  - exists s'. split; [destruct Hs as (o & E & Es); exists o; split; [rewrite lstep_same by discriminate; exact E|exact Es]|]. split; [exact Hf|].
    assert (Hd : Forall dname names). { destruct Ho as (_ & _ & Ho). specialize (Ho (root ++ backend_path (spell comps))). rewrite Hn in Ho. exact Ho. }
    assert (Hls : forall i n, names !! i = Some n -> b_lstat (local_backend root H) i (join_path (backend_path (spell comps)) n) = os_lstat (h_os H i) ((root ++ spell comps) ++ [47] ++ n)).
    { intros i n Hi. assert (Hdn : dname n) by (rewrite Forall_forall in Hd; apply Hd; eapply elem_of_list_lookup_2, Hi). cbn [b_lstat local_backend]. rewrite join_spell by exact Hc. unfold local_lstat. destruct (map_child root comps n Hr Hc Hdn) as [F1 F2]. rewrite F1, F2, <- app_assoc. reflexivity. }
    intros n a. rewrite Hl. split.
    + intros [(Hlen & _) (i & st & Hi & Hst & Hast & Hlast)]. split; [exact Hlen|]. exists i, st. split; [exact Hi|]. split; [rewrite <- Hls by exact Hi; exact Hst|]. split; [exact Hast|]. intros j Hj Hjn. destruct (Hlast j Hj Hjn) as [e' He']. exists e'. rewrite <- Hls by exact Hjn. exact He'.
    + intros [Hlen (i & st & Hi & Hst & Hast & Hlast)]. split.
      * assert (Hdn : dname n) by (rewrite Forall_forall in Hd; apply Hd; eapply elem_of_list_lookup_2, Hi). destruct Hdn as (_ & ? & ?). split; auto.
      * exists i, st. split; [exact Hi|]. split; [rewrite Hls by exact Hi; exact Hst|]. split; [exact Hast|]. intros j Hj Hjn. destruct (Hlast j Hj Hjn) as [e' He']. exists e'. rewrite Hls by exact Hjn. exact He'.
Qed.
Print Assumptions C59_opendir.
(** readlink: the host's target, if st_size does not lie (C50); the target is cached *)
Lemma lreadlink_step root s H x pp r : asked s x = Some pp -> local_readlink (h_os H 0) root (backend_path pp) = Done r -> lstep root s H (LReadlink x) = fstep s (on root H (LReadlink x)).
Proof. unfold asked. intros Ha Hr. cbn [lstep]. destruct (path (s_db s) x) as [[pp'|]| | |]; try discriminate Ha. injection Ha as ->. cbn [obind]. rewrite Hr. reflexivity. Qed.
Theorem C59_readlink : forall root W s k l h H x pp st t, lhist root W s k l h -> root_ok root -> host_ok H -> 0 < kcount k x -> W + 3 < 2 ^ 63 ->
  asked s x = Some pp -> os_lstat (h_os H 0) (root ++ backend_path pp) = Ok st -> os_readlink (h_os H 0) (root ++ backend_path pp) = Ok t -> Z.of_nat (length t) <= a_size st + 1 ->
  exists s', lhandles root s H (LReadlink x) [RReadlink (cstr t)] s' /\
    forall a, getattr (s_db s) x = Ok a -> ftype (a_mode a) = S_IFLNK -> readlink (s_db s') x = Ok t.
Proof.
  intros root W s k l h H x pp st t Hh Hr Ho Hx HW Ha Hst Ht Hlen. destruct (lasked _ _ _ _ _ _ _ _ Hh (or_intror Hx) Ha) as (comps & -> & Hc). apply clean_dname in Hc.
  destruct (map_clean root comps Hr Hc) as [E1 E2].
  assert (Er : local_readlink (h_os H 0) root (backend_path (spell comps)) = Done (Ok t)). { eapply C50_readlink_partial; [exact E1| | |exact Hlen]; rewrite E2; assumption. }
  destruct (hist_inv _ _ _ _ (thist_hist _ _ _ _ (lhist_thist _ _ _ _ _ _ Hh))) as (HF & _ & _). pose proof (dr_inv _ _ _ (fi_dr _ _ _ HF)) as Hi.
  destruct (h_readlink_total W s k (local_backend root H) x HF) as (s' & l' & E & Hcase). exists s'.
  assert (Eb : b_readlink (local_backend root H) (backend_path (spell comps)) = Ok t) by (cbn [b_readlink local_backend]; rewrite Er; reflexivity).
  destruct Hcase as [Hw|comps' link r t1 Hw Hb Hwl|comps' link Hw Hb|comps' e Hw Hb|comps' e r t1 Hw Hb];
    try (rewrite (asked_walk _ _ _ Hi Hw) in Ha; injection Ha as Ha; rewrite Ha in Hb); try congruence; [rewrite asked_none in Ha by assumption; discriminate|].
  assert (link = t) by congruence. subst link. split.
  - exists (Some [RReadlink (cstr t)]). split; [|apply answer_one]. rewrite (lreadlink_step root s H x (spell comps) (Ok t)); [cbn [on fstep]; rewrite E; reflexivity|rewrite <- Ha; apply asked_walk; assumption|exact Er].
  - intros a Hg Hf. unfold getattr in Hg. unfold writelink in Hwl. cbn [t_db begun begin_tx] in Hwl. destruct (d_inodes (s_db s) !! x) as [i|] eqn:Ei; [|discriminate]. injection Hg as <-. rewrite Hf in Hwl. cbn [negb Z.eqb] in Hwl. injection Hwl as _ <-. cbn. unfold readlink. cbn [d_links set_links]. rewrite lookup_insert. reflexivity.
Qed.
Print Assumptions C59_readlink.
(** A name that was a symbolic link when it was looked up and is something else now: the exception
    of C50_throws ends the process. *)
Theorem C59_readlink_dies : forall root W s k l h H x pp st e, lhist root W s k l h -> root_ok root -> 0 < kcount k x ->
  asked s x = Some pp -> os_lstat (h_os H 0) (root ++ backend_path pp) = Ok st -> os_readlink (h_os H 0) (root ++ backend_path pp) = Err e ->
  lstep root s H (LReadlink x) = Throw.
Proof.
  intros root W s k l h H x pp st e Hh Hr Hx Ha Hst He. destruct (lasked _ _ _ _ _ _ _ _ Hh (or_intror Hx) Ha) as (comps & -> & Hc). apply clean_dname in Hc.
  destruct (map_clean root comps Hr Hc) as [E1 E2]. unfold asked in Ha. cbn [lstep]. destruct (path (s_db s) x) as [[pp'|]| | |]; try discriminate Ha. injection Ha as ->. cbn [obind].
  rewrite (C50_throws _ _ _ _ st e E1) by (rewrite E2; assumption). reflexivity.
Qed.
(** Listings that end with an error look like complete ones: opendir of a directory does the same
    whatever error ends the listing. *)
Theorem C59_error_hidden : forall root s H H' q, (forall i, h_os H' i = h_os H i) -> (forall p, fst (h_names H' p) = fst (h_names H p)) -> lstep root s H' q = lstep root s H q.
Proof.
  intros root s H H' q Ho Hn. assert (Hs : forall t ino bp names i, sync_entries t (local_backend root H') ino bp i names = sync_entries t (local_backend root H) ino bp i names).
  { intros t ino bp names. revert t. induction names as [|n names IH]; intros t i; [reflexivity|]. cbn [sync_entries b_lstat local_backend]. rewrite Ho. destruct (local_lstat _ _ _); [|apply IH]. destruct (emplace _ _ _ _) as [[? ?]| | |]; cbn [obind]; auto. }
  assert (Hl : forall p, local_listing H' root p = local_listing H root p).
  { intros p. unfold local_listing. rewrite Ho. destruct (local_opendir _ _ _); [|reflexivity]. destruct (map_path root p) as [fp|]; [|reflexivity]. specialize (Hn (cstr fp)). destruct (h_names H' (cstr fp)), (h_names H (cstr fp)). cbn in *. congruence. }
  assert (Hr : fstep s (on root H' q) = fstep s (on root H q)).
  { destruct q as [p n|x|x|q]; cbn [on fstep]; [| | |reflexivity].
    - unfold h_lookup. cbn [b_lstat local_backend]. rewrite Ho. reflexivity.
    - unfold h_readlink. cbn [b_readlink local_backend]. rewrite Ho. reflexivity.
    - unfold h_opendir. destruct (path _ _) as [[pp|]| | |]; cbn [obind]; auto. cbn [b_opendir local_backend]. rewrite Hl. destruct (local_listing _ _ _) as [[names e]|]; [|reflexivity]. destruct (start_dir_rewrite _ _) as [[u t]| | |]; cbn [obind]; auto. rewrite Hs. reflexivity. }
  destruct q; cbn [lstep]; try exact Hr. rewrite Ho, Hr. reflexivity.
Qed.

(** ** C60: what is outside of the mounted directory is not visible *)
(** The full claim: files outside of the root have no influence on replies and on the cache. *)
Definition same_below (cwd : list bytes) (root : bytes) (H H' : host) : Prop :=
  (forall i, agree_under cwd root (h_os H i) (h_os H' i)) /\ (forall p, under cwd root p -> h_names H p = h_names H' p).
Definition C60_full : Prop := forall cwd root W s k l h H H' q, lhist root W s k l h -> root_ok root -> host_ok H -> host_ok H' -> klegal k s (on root H q) -> ltame k q ->
  same_below cwd root H H' -> lstep root s H q = lstep root s H' q.
(** It holds but for the attributes of the directory that contains the root. *)
Definition same_parent (root : bytes) (H H' : host) : Prop := forall i, os_lstat (h_os H i) (root ++ [47] ++ DOTDOT) = os_lstat (h_os H' i) (root ++ [47] ++ DOTDOT).

Lemma parts_name n b : 47 ∉ n -> parts (n ++ 47 :: b) = n :: parts b.
Proof. intros Hn. rewrite parts_app. assert (E : parts n = [n]); [|rewrite E; reflexivity]. induction n as [|c n IH]; [reflexivity|]. apply not_elem_of_cons in Hn as [Hc Hn]. cbn. destruct (Z.eqb_spec c 47); [congruence|]. rewrite IH by exact Hn. reflexivity. Qed.
Lemma parts_one n : 47 ∉ n -> parts n = [n].
Proof. induction n as [|c n IH]; intros Hn; [reflexivity|]. apply not_elem_of_cons in Hn as [Hc Hn]. cbn. destruct (Z.eqb_spec c 47); [congruence|]. rewrite IH by exact Hn. reflexivity. Qed.
Lemma parts_spell comps : Forall dname comps -> parts (spell comps) = [] :: comps.
Proof.
  induction comps as [|n comps IH] using rev_ind; [reflexivity|]. intros Hc. apply Forall_app in Hc as [Hc Hn]. apply Forall_cons in Hn as [(_ & Hn & _) _]. rewrite spell_snoc. change ([47] ++ n) with (47 :: n). rewrite parts_app, IH, (parts_one n Hn) by exact Hc. reflexivity.
Qed.
Lemma walk_clean at_ comps : clean comps -> walk_parts at_ comps = at_ ++ comps.
Proof.
  intros Hc. rewrite walk_down; [f_equal|]; [|eapply Forall_impl; [exact Hc|]; intros n [(_ & _ & ?) _]; assumption].
  induction Hc as [|n comps [(? & ? & _) _] _ IH]; [reflexivity|]. cbn [List.filter]. unfold real at 1. rewrite !bool_decide_eq_false_2 by assumption. cbn. rewrite IH. reflexivity.
Qed.
(** where the paths the backend is asked about lead *)
Lemma under_dir cwd root comps : root_ok root -> clean comps -> under cwd root (root ++ backend_path (spell comps)).
Proof.
  intros Hr Hc. destruct (map_clean root comps Hr (clean_dname _ Hc)) as [E _]. exists comps. rewrite (C45_mapped cwd _ _ _ E). unfold backend_path.
  destruct comps as [|n comps]; [cbn; rewrite app_nil_r; reflexivity|]. change (match spell (n :: comps) with [] => SLASH | _ => _ end) with (spell (n :: comps)). rewrite parts_spell by (apply clean_dname, Hc). change (walk_parts (leads_to cwd root) ([] :: n :: comps)) with (walk_parts (walk1 (leads_to cwd root) []) (n :: comps)). rewrite walk_empty. apply walk_clean, Hc.
Qed.
Lemma under_child cwd root comps n : root_ok root -> clean comps -> dname n -> under cwd root (root ++ spell comps ++ [47] ++ n) \/ comps = [] /\ n = DOTDOT.
Proof.
  intros Hr Hc Hn. destruct (map_child root comps n Hr (clean_dname _ Hc) Hn) as [E _]. unfold under. rewrite (C45_mapped cwd _ _ _ E), <- spell_snoc, parts_spell by (apply Forall_app; split; [apply clean_dname, Hc|constructor; [exact Hn|constructor]]).
  unfold walk_parts. cbn [fold_left]. rewrite walk_empty, fold_left_app. cbn [fold_left]. change (fold_left walk1 comps (leads_to cwd root)) with (walk_parts (leads_to cwd root) comps). rewrite walk_clean by exact Hc.
  unfold walk1. destruct (decide (n = [])); [left; eauto|]. destruct (decide (n = DOT)); [left; eauto|]. destruct (decide (n = DOTDOT)) as [->|]; [|left; rewrite <- app_assoc; eauto].
  destruct comps as [|m comps _] using rev_ind; [right; auto|]. left. rewrite app_assoc, removelast_last. eauto.
Qed.
Lemma same_lstat cwd root H H' comps n i : root_ok root -> clean comps -> dname n -> same_below cwd root H H' -> (plain n \/ same_parent root H H') ->
  local_lstat (h_os H i) root (spell comps ++ [47] ++ n) = local_lstat (h_os H' i) root (spell comps ++ [47] ++ n).
Proof.
  intros Hr Hc Hn [Hs _] Hp. unfold local_lstat. destruct (map_child root comps n Hr (clean_dname _ Hc) Hn) as [-> ->]. destruct (under_child cwd root comps n Hr Hc Hn) as [Hu|[-> ->]]; [apply (Hs i _ Hu)|]. destruct Hp as [(_ & _ & Hp)|Hp]; [congruence|apply Hp].
Qed.
Lemma same_dir cwd root H H' comps : root_ok root -> clean comps -> same_below cwd root H H' ->
  local_listing H root (backend_path (spell comps)) = local_listing H' root (backend_path (spell comps)) /\
  local_readlink (h_os H 0) root (backend_path (spell comps)) = local_readlink (h_os H' 0) root (backend_path (spell comps)).
Proof.
  intros Hr Hc [Hs Hn]. pose proof (under_dir cwd root comps Hr Hc) as Hu. unfold local_listing, local_opendir, local_readlink. destruct (map_clean root comps Hr (clean_dname _ Hc)) as [-> ->].
  destruct (Hs 0%nat _ Hu) as (-> & _ & -> & ->). rewrite (Hn _ Hu). auto.
Qed.
Lemma local_names H root comps names e : host_ok H -> local_listing H root (backend_path (spell comps)) = Ok (names, e) -> Forall dname names.
Proof. intros (_ & _ & Hn). unfold local_listing. destruct (local_opendir _ _ _); [|discriminate]. destruct (map_path _ _) as [fp|]; [|discriminate]. pose proof (Hn (cstr fp)) as Hf. destruct (h_names H (cstr fp)). intros E. injection E as <- _. exact Hf. Qed.

Lemma same_step cwd root W s k l h H H' q : lhist root W s k l h -> root_ok root -> host_ok H -> klegal k s (on root H q) -> ltame k q ->
  same_below cwd root H H' -> same_parent root H H' \/ (forall x, q <> LOpendir x) -> lstep root s H q = lstep root s H' q /\ weight s (on root H q) = weight s (on root H' q).
Proof.
  intros Hh Hr Ho Hl Ht Hs Hp. destruct q as [p n|x|x|q]; cbn [lstep on]; [| | |auto].
  - split; [|reflexivity]. destruct Hl as [Hk _]. cbn [fstep]. unfold h_lookup. cbn [t_db begin_tx]. destruct (path (s_db s) p) as [[pp|]| | |] eqn:Ep; cbn [obind]; auto.
    destruct (lasked _ _ _ _ _ _ _ pp Hh (kdir_held _ _ Hk)) as (comps & -> & Hc); [unfold asked; rewrite Ep; reflexivity|]. cbn [b_lstat local_backend]. destruct Ht as [Ht Hd]. rewrite (same_lstat cwd root H H') by auto. reflexivity.
  - split; [|reflexivity]. destruct (path (s_db s) x) as [[pp|]| | |] eqn:Ep; cbn [obind]; auto; [|cbn [fstep]; unfold h_readlink; cbn [t_db begin_tx]; rewrite Ep; reflexivity].
    destruct (lasked _ _ _ _ _ _ _ pp Hh Ht) as (comps & -> & Hc); [unfold asked; rewrite Ep; reflexivity|]. destruct (same_dir cwd root H H' comps Hr Hc Hs) as [_ Erl]. cbn [fstep]. unfold h_readlink. cbn [t_db begin_tx]. rewrite Ep. cbn [obind b_readlink local_backend]. rewrite !Erl. reflexivity.
  - destruct Hl as [Hk _]. destruct Hp as [Hp|Hp]; [|destruct (Hp x); reflexivity]. cbn [fstep weight]. unfold h_opendir. cbn [t_db begin_tx]. destruct (path (s_db s) x) as [[pp|]| | |] eqn:Ep; cbn [obind]; auto.
    destruct (lasked _ _ _ _ _ _ _ pp Hh (kdir_held _ _ Hk)) as (comps & -> & Hc); [unfold asked; rewrite Ep; reflexivity|]. destruct (same_dir cwd root H H' comps Hr Hc Hs) as [El _]. cbn [b_opendir local_backend]. rewrite <- El. split; [|reflexivity].
    destruct (local_listing H root _) as [[names e]|] eqn:En; [|reflexivity]. pose proof (local_names _ _ _ _ _ Ho En) as Hd.
    assert (Hsy : forall names, Forall dname names -> forall i t, sync_entries t (local_backend root H) x (backend_path (spell comps)) i names = sync_entries t (local_backend root H') x (backend_path (spell comps)) i names).
    { clear - Hr Hc Hs Hp. induction 1 as [|n names Hn Hd IH]; intros i t; [reflexivity|]. cbn [sync_entries b_lstat local_backend]. rewrite join_spell by (apply clean_dname, Hc). rewrite (same_lstat cwd root H H' comps n i Hr Hc Hn Hs (or_intror Hp)). destruct (local_lstat _ _ _); [|apply IH]. destruct (emplace _ _ _ _) as [[? ?]| | |]; cbn [obind]; auto. }
    destruct (start_dir_rewrite _ _) as [[u t]| | |]; cbn [obind]; auto. rewrite Hsy by exact Hd. reflexivity.
Qed.
Theorem C60_confined_partial : forall cwd root W s k l h H H' q, lhist root W s k l h -> root_ok root -> host_ok H -> klegal k s (on root H q) -> ltame k q ->
  same_below cwd root H H' -> same_parent root H H' -> lstep root s H q = lstep root s H' q.
Proof. intros cwd root W s k l h H H' q Hh Hr Ho Hl Ht Hs Hp. apply (same_step cwd root W s k l h); auto. Qed.
Print Assumptions C60_confined_partial.
(** Requests other than opendir do not even depend on the parent's attributes. *)
Theorem C60_confined_other : forall cwd root W s k l h H H' q, lhist root W s k l h -> root_ok root -> host_ok H -> klegal k s (on root H q) -> ltame k q -> (forall x, q <> LOpendir x) ->
  same_below cwd root H H' -> lstep root s H q = lstep root s H' q.
Proof. intros cwd root W s k l h H H' q Hh Hr Ho Hl Ht Hn Hs. apply (same_step cwd root W s k l h); auto. Qed.
(** Whole histories: the same requests on hosts that agree below the root get the same replies and
    leave the same cache. *)
Theorem C60_histories_partial : forall cwd root W s k l h, lhist root W s k l h -> root_ok root ->
  forall l', Forall2 (fun a b => snd a = snd b /\ host_ok (fst b) /\ same_below cwd root (fst a) (fst b) /\ same_parent root (fst a) (fst b)) l l' ->
  exists h', lhist root W s k l' h' /\ map ev_sent h' = map ev_sent h /\ map ev_s h' = map ev_s h.
Proof.
  intros cwd root W s k l h Hh Hr. induction Hh as [a d r Ha E|W s k l h H q s' o sent Hh IH Ho Hl Ht HW E Es]; intros l' HF.
  - apply Forall2_nil_inv_l in HF as ->. exists []. split; [eapply lh_open; eassumption|auto].
  - apply Forall2_app_inv_l in HF as (l1 & l2 & HF & HF2 & ->). apply Forall2_cons_inv_l in HF2 as ([H' q'] & l3 & (Hq & Ho' & Hs & Hp) & HF3 & ->). apply Forall2_nil_inv_l in HF3 as ->. cbn [fst snd] in *. subst q'.
    destruct (IH l1 HF) as (h' & Hh' & E1 & E2). destruct (same_step cwd root W s k l h H H' q Hh Hr Ho Hl Ht Hs (or_introl Hp)) as [Est Ewt]. exists (h' ++ [Ev s (on root H' q) sent]).
    assert (Ek : kstep k (on root H q) sent = kstep k (on root H' q) sent) by (destruct q; reflexivity). split; [|rewrite !map_app, E1, E2; auto]. rewrite Ek, Ewt. eapply lh_step; try eassumption.
    + destruct q; cbn [on klegal] in *; try exact Hl; try apply local_lstat_ok; auto; (split; [apply Hl|apply local_lstat_ok; exact Ho']).
    + unfold enough in *. rewrite <- Ewt. exact HW.
    + rewrite <- Est. exact E.
Qed.
Print Assumptions C60_histories_partial.

(** ** Samples *)
Definition ltameb (k : kst) (q : lrequest) : bool :=
  match q with
  | LLookup p n => bool_decide (n <> [] /\ n <> DOT /\ n <> DOTDOT) && bool_decide (n <> [] /\ 47 ∉ n /\ 0 ∉ n)
  | LReadlink x => (x =? ROOT_INO) || (0 <? kcount k x)
  | LOpendir _ => true
  | LLocal q => match backend_of q with Some _ => false | None => match q with QPlusBegin _ x => kdirb k x | _ => true end end
  end.
Lemma ltameb_ok k q : ltameb k q = true -> ltame k q.
Proof.
  destruct q as [p n|x|x|q]; cbn [ltameb ltame]; intros H; auto.
  - apply andb_true_iff in H as [H1 H2]. apply bool_decide_eq_true_1 in H1, H2. auto.
  - apply orb_true_iff in H as [H|H]; [apply Z.eqb_eq in H|apply Z.ltb_lt in H]; auto.
  - destruct (backend_of q) eqn:Eb; [discriminate|]. split; [reflexivity|]. destruct q; auto using kdirb_ok.
Qed.
Fixpoint lplay (root : bytes) (W : Z) (s : fstate) (k : kst) (h : list event) (qs : list (host * lrequest)) : option (Z * fstate * kst * list event) :=
  match qs with
  | [] => Some (W, s, k, h)
  | (H, q) :: qs =>
    let q' := on root H q in
    if klegalb k s q' && ltameb k q && (W + weight s q' + 3 <? 2 ^ 63) then
      match lstep root s H q with
      | Done (s', o) =>
        match sent_of o with
        | (sent, false) => lplay root (W + weight s q') s' (kstep k q' sent) (h ++ [Ev s q' sent]) qs
        | _ => None
        end
      | _ => None
      end
    else None
  end.
Lemma lplay_hist root qs : forall W s k l h W' s' k' h', lhist root W s k l h -> Forall (fun x => host_ok (fst x)) qs -> lplay root W s k h qs = Some (W', s', k', h') -> lhist root W' s' k' (l ++ qs) h'.
Proof.
  induction qs as [|[H q] qs IH]; intros W s k l h W' s' k' h' Hh Hq E; cbn [lplay] in E; [injection E as <- <- <- <-; rewrite app_nil_r; exact Hh|].
  destruct (klegalb _ _ _ && _ && _) eqn:Hl; [|discriminate]. apply andb_true_iff in Hl as [Hl Hw]. apply andb_true_iff in Hl as [Hl Ht]. apply Z.ltb_lt in Hw. inversion Hq as [|? ? Hq1 Hq2]; subst. cbn [fst] in Hq1.
  destruct (lstep root s H q) as [[s1 o]| | |] eqn:Ef; try discriminate. destruct (sent_of o) as [sent []] eqn:Eo; [discriminate|].
  change (l ++ (H, q) :: qs) with (l ++ [(H, q)] ++ qs). rewrite app_assoc. eapply IH; [|exact Hq2|exact E]. eapply lh_step; try eassumption; [|apply ltameb_ok; exact Ht].
  apply klegalb_ok; [|exact Hl]. unfold q_ok. apply ltameb_ok in Ht. destruct q; cbn [on backend_of ltame] in *; try (apply local_lstat_ok; exact Hq1). destruct Ht as [-> _]. exact I.
Qed.
Lemma lh_start root : lhist root 0 s_start k0 [] [].
Proof. unfold s_start. destruct (open_cache rootA db_empty) as [[d r]| | |] eqn:E; try (vm_compute in E; discriminate). econstructor; [exact rootA_ok|exact E]. Qed.
Definition lsess (qs : list (host * lrequest)) : Z * fstate * kst * list event := match lplay ROOTDIR 0 s_start k0 [] qs with Some x => x | None => (0, s_start, k0, []) end.
Definition lW qs : Z := fst (fst (fst (lsess qs))).
Definition lS qs : fstate := snd (fst (fst (lsess qs))).
Definition lK qs : kst := snd (fst (lsess qs)).
Definition lH qs : list event := snd (lsess qs).
Lemma lsess_hist qs : Forall (fun x => host_ok (fst x)) qs -> match lplay ROOTDIR 0 s_start k0 [] qs with Some _ => true | None => false end = true -> lhist ROOTDIR (lW qs) (lS qs) (lK qs) qs (lH qs).
Proof. intros Hq Hs. unfold lW, lS, lK, lH, lsess. destruct (lplay ROOTDIR 0 s_start k0 [] qs) as [[[[W s] k] h]|] eqn:E; [|discriminate]. cbn [fst snd]. apply (lplay_hist ROOTDIR qs 0 s_start k0 [] []); auto using lh_start. Qed.
(** a host whose "/s" has the files of [stats], ... ; [par]: the attributes of "/s/.." *)
Definition fhost (par : attrs) (stats : list (bytes * attrs)) (links : list (bytes * bytes)) (dirs : list (bytes * (list bytes * Z))) : host :=
  Host (fun _ => Os (fun p => if decide (p = ROOTDIR ++ [47] ++ DOTDOT) then Ok par else FsPlay.assoc stats p ENOENT) (fun _ _ _ => Err ENOENT)
                    (fun p => match FsPlay.assoc dirs p ENOENT with Ok _ => Ok 3 | Err e => Err e end) (fun p => FsPlay.assoc links p EINVAL))
       (fun p => match FsPlay.assoc dirs p ENOENT with Ok l => l | Err _ => ([], 0) end).
Lemma fhost_ok par stats links dirs : attrs_ok par -> Forall attrs_ok (stats.*2) -> Forall (fun l => Z.of_nat (length l) < 2 ^ 64) (links.*2) -> Forall (fun l => Forall dname (fst l)) (dirs.*2) -> host_ok (fhost par stats links dirs).
Proof.
  intros Hp H1 H2 H3. split; [|split]; cbn.
  - intros _ p st E. destruct (decide _); [injection E as <-; exact Hp|]. apply assoc_in in E. rewrite Forall_forall in H1. auto.
  - intros p l E. apply assoc_in in E. rewrite Forall_forall in H2. auto.
  - intros p. destruct (FsPlay.assoc dirs p ENOENT) as [l|] eqn:E; cbn; [|constructor]. apply assoc_in in E. rewrite Forall_forall in H3. auto.
Qed.
Lemma fhost_same par par' stats links dirs : same_below [] ROOTDIR (fhost par stats links dirs) (fhost par' stats links dirs).
Proof.
  split; [|reflexivity]. intros i p [rest Hu]. cbn. split; [|auto]. destruct (decide (p = ROOTDIR ++ [47] ++ DOTDOT)) as [->|Hn].
  - exfalso. vm_compute in Hu. discriminate.
  - rewrite !decide_False by exact Hn. reflexivity.
Qed.
Definition sp (p : bytes) : bytes := ROOTDIR ++ p.
Definition H_stats : list (bytes * attrs) := [(sp [47; 46], dirA); (sp pD, dirA); (sp pF, fileA 10); (sp pL, linkA); (sp (pD ++ [47; 46]), dirA); (sp (pD ++ [47; 46; 46]), dirA); (sp pDF, fileA 20); (sp pDG, fileA 30)].
Definition H_dirs : list (bytes * (list bytes * Z)) := [(sp [47], ([DOT; DOTDOT; nD; nF; nL], 0)); (sp pD, ([DOT; DOTDOT; nF; nG], EIO))].
Definition hostA : host := fhost dirA H_stats [(sp pL, pF)] H_dirs.
(** the same, but "/" belongs to somebody else *)
Definition dirB : attrs := Attrs 4096 0 0 0 (9, 0) (9, 0) (9, 0) (S_IFDIR + 493).
Definition hostB : host := fhost dirB H_stats [(sp pL, pF)] H_dirs.
(** later "/s/l" is an ordinary file *)
Definition hostC : host := fhost dirA [(sp pL, fileA 5)] [] [].
Ltac all_oks := cbn; repeat first [apply Forall_cons; split|apply Forall_nil]; try exact I; first [exact dirA_ok|exact linkA_ok|apply fileA_ok; unfold u64; lia|cbn; lia|apply (bool_decide_eq_true_1 _); vm_compute; reflexivity].
Lemma dirB_ok : attrs_ok dirB.
Proof. repeat split; try (vm_compute; reflexivity); vm_compute; discriminate. Qed.
Lemma hostA_ok : host_ok hostA. Proof. apply fhost_ok; [exact dirA_ok|all_oks..]. Qed.
Lemma hostB_ok : host_ok hostB. Proof. apply fhost_ok; [exact dirB_ok|all_oks..]. Qed.
Lemma hostC_ok : host_ok hostC. Proof. apply fhost_ok; [exact dirA_ok|all_oks..]. Qed.
Lemma ROOTDIR_ok : root_ok ROOTDIR.
Proof. split; [discriminate|]. split; [discriminate|]. apply (bool_decide_eq_true_1 _). vm_compute. reflexivity. Qed.
Definition lqs : list (host * lrequest) := [(hostA, LLookup 1 nD); (hostA, LLookup 1 nL); (hostA, LOpendir 2); (hostA, LReadlink 3)].
Lemma lqs_hist : lhist ROOTDIR (lW lqs) (lS lqs) (lK lqs) lqs (lH lqs).
Proof. apply lsess_hist; [repeat (apply Forall_cons; split; [exact hostA_ok|]); apply Forall_nil; exact I|]. vm_compute. reflexivity. Qed.
Example C59_sample : kdir (lK lqs) 2 /\ 0 < kcount (lK lqs) 3 /\ lW lqs + 50 < 2 ^ 63 /\ asked (lS lqs) 2 = Some pD /\ asked (lS lqs) 3 = Some pL /\
  plain nF /\ dname nF /\ os_lstat (h_os hostA 0) (ROOTDIR ++ pD ++ [47] ++ nF) = Ok (fileA 20) /\ os_readlink (h_os hostA 0) (ROOTDIR ++ backend_path pL) = Ok pF /\
  os_opendir (h_os hostA 0) (ROOTDIR ++ backend_path pD) = Ok 3 /\ h_names hostA (ROOTDIR ++ backend_path pD) = ([DOT; DOTDOT; nF; nG], EIO) /\
  map ev_sent (lH lqs) = [[REntry 2 dirA]; [REntry 3 linkA]; [ROpen]; [RReadlink pF]].
Proof.
  split; [apply kdirb_ok; vm_compute; reflexivity|]. split; [vm_compute; reflexivity|]. split; [vm_compute; reflexivity|]. split; [vm_compute; reflexivity|]. split; [vm_compute; reflexivity|].
  split; [apply (bool_decide_eq_true_1 _); vm_compute; reflexivity|]. split; [apply (bool_decide_eq_true_1 _); vm_compute; reflexivity|]. repeat split; vm_compute; reflexivity.
Qed.
(** "/s/l" was a link when the kernel looked it up and opened it; then it was replaced *)
Theorem C59_readlink_refuted : exists root W s k l h H x, lhist root W s k l h /\ root_ok root /\ host_ok H /\ klegal k s (on root H (LReadlink x)) /\ ltame k (LReadlink x) /\ lstep root s H (LReadlink x) = Throw.
Proof.
  exists ROOTDIR, (lW lqs), (lS lqs), (lK lqs), lqs, (lH lqs), hostC, 3. split; [exact lqs_hist|]. split; [exact ROOTDIR_ok|]. split; [exact hostC_ok|]. split; [exact (local_lstat_ok _ _ hostC_ok)|]. split; [right; vm_compute; reflexivity|].
  apply (C59_readlink_dies ROOTDIR (lW lqs) (lS lqs) (lK lqs) lqs (lH lqs) hostC 3 pL (fileA 5) EINVAL lqs_hist ROOTDIR_ok); vm_compute; reflexivity.
Qed.
(** C60: listing the root shows the attributes of "/s/..", in the entry ".." that is a child of the
    root (C52) *)
Definition pqs (H : host) : list (host * lrequest) := [(H, LOpendir 1); (H, LLocal (QPlusBegin 7 1)); (H, LLocal (QPlusRun 7 4096 0))].
Lemma pqs_hist H : H = hostA \/ H = hostB -> lhist ROOTDIR (lW (pqs H)) (lS (pqs H)) (lK (pqs H)) (pqs H) (lH (pqs H)).
Proof.
  intros HH. apply lsess_hist; [assert (host_ok H) by (destruct HH as [->| ->]; [exact hostA_ok|exact hostB_ok]); repeat (apply Forall_cons; split; [cbn [fst]; assumption|]); apply Forall_nil; exact I|].
  destruct HH as [->| ->]; vm_compute; reflexivity.
Qed.
Definition lbuf (H : host) : bytes := match map ev_sent (lH (pqs H)) with [_; _; [RBuf b]] => b | _ => [] end.
Lemma lbuf_differ : lbuf hostA <> lbuf hostB.
Proof. assert (Hn : bool_decide (lbuf hostA = lbuf hostB) = false) by (vm_compute; reflexivity). apply bool_decide_eq_false_1 in Hn. exact Hn. Qed.
Theorem C60_parent_refuted : exists cwd root H H' W s k h W' s' k' h', root_ok root /\ host_ok H /\ host_ok H' /\ same_below cwd root H H' /\
  lhist root W s k (pqs H) h /\ lhist root W' s' k' (pqs H') h' /\ map ev_sent h <> map ev_sent h'.
Proof.
  exists [], ROOTDIR, hostA, hostB, (lW (pqs hostA)), (lS (pqs hostA)), (lK (pqs hostA)), (lH (pqs hostA)), (lW (pqs hostB)), (lS (pqs hostB)), (lK (pqs hostB)), (lH (pqs hostB)).
  split; [exact ROOTDIR_ok|]. split; [exact hostA_ok|]. split; [exact hostB_ok|]. split; [apply fhost_same|]. split; [apply pqs_hist; auto|]. split; [apply pqs_hist; auto|].
  intros E. apply lbuf_differ. unfold lbuf. rewrite E. reflexivity.
Qed.
Theorem C60_refuted : ~ C60_full.
Proof.
  intros HC. pose proof (HC [] ROOTDIR 0 s_start k0 [] [] hostA hostB (LOpendir 1) (lh_start _) ROOTDIR_ok hostA_ok hostB_ok (conj (or_introl eq_refl) (local_lstat_ok _ _ hostA_ok)) I (fhost_same _ _ _ _ _)) as E.
  apply (f_equal (fun r => match r with Done (s', _) => match lookup (s_db s') 1 DOTDOT with Ok c => match getattr (s_db s') c with Ok a => a_uid a | _ => 7 end | _ => 8 end | _ => 9 end)) in E. vm_compute in E. discriminate.
Qed.
(** the hypotheses of C60 hold: hosts that differ in everything that is not below "/s" and not "/" *)
Definition outer (H : host) (a : attrs) : host :=
  Host (fun i => Os (fun p => if decide (p = [47; 120]) then Ok a else os_lstat (h_os H i) p) (os_open (h_os H i)) (os_opendir (h_os H i)) (os_readlink (h_os H i))) (h_names H).
Example C60_sample : let H' := outer hostA dirB in host_ok H' /\ same_below [] ROOTDIR hostA H' /\ same_parent ROOTDIR hostA H' /\ os_lstat (h_os hostA 0) [47; 120] <> os_lstat (h_os H' 0) [47; 120] /\
  klegal (lK lqs) (lS lqs) (on ROOTDIR hostA (LOpendir 1)) /\ ltame (lK lqs) (LOpendir 1).
Proof.
  split; [|split; [|split; [|split; [|split]]]].
  - destruct hostA_ok as (H1 & H2 & H3). split; [|split; [exact H2|exact H3]]. intros i p st. cbn [outer h_os os_lstat]. destruct (decide _); [intros E; injection E as <-; exact dirB_ok|apply H1].
  - split; [|reflexivity]. intros i p [rest Hu]. cbn [outer h_os os_lstat os_open os_opendir os_readlink]. split; [|auto]. rewrite decide_False; [reflexivity|]. intros ->. vm_compute in Hu. discriminate.
  - intros i. reflexivity.
  - vm_compute. discriminate.
  - split; [left; reflexivity|apply local_lstat_ok, hostA_ok].
  - exact I.
Qed.
