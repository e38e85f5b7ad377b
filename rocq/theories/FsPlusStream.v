(** Reading a directory in pieces with readdirplus while other requests change it.  Nothing is
    modelled here: [QPlusBegin] and [QPlusRun] are the two halves of fs.cpp:308-372 (Fs.v). *)
From Verif Require Export FsStream.

(** ** the snapshot of a request stays what it is until the request runs *)
Lemma plus_snap_step W s k q s' o id : FInv W s k -> klegal k s q -> enough W s q -> fstep s q = Done (s', o) -> (forall z, q <> QPlusBegin id z) ->
  s_plus s' !! id = s_plus s !! id \/ s_plus s' !! id = None.
Proof.
  intros HF Hl HW E Hq. pose proof (dr_inv _ _ _ (fi_dr _ _ _ HF)) as H. assert (H63 : 2 ^ 63 < 2 ^ 64) by lia. unfold enough in HW.
  assert (Hwt : 0 <= weight s q). { destruct q; cbn [weight]; try lia. destruct (path _ _) as [[?|?]| | |]; try lia. destruct (b_opendir _ _) as [[? ?]|]; lia. }
  destruct q as [b p n|x m|fs|x|b x|b x|x size off|x|id' x|id' size off|tag|root]; cbn [fstep klegal] in *.
  - destruct Hl as [Hk Hb]. cbn [weight] in HW. destruct (h_lookup_total W s k b p n HF Hk ltac:(lia)) as (s2 & l & E2 & Hc). rewrite E2 in E. injection E as <- <-.
    destruct (lookup_way W s k b p n _ _ HF Hk ltac:(lia) Hc) as [[-> _]|[(t & e & -> & _)|(t & c & a & -> & _)]]; left; reflexivity.
  - destruct (h_forget_spec W s k x m HF ltac:(lia) Hl) as (t & E2 & _). rewrite E2 in E. injection E as <- <-. left; reflexivity.
  - destruct Hl as [Hl1 Hl2]. destruct (h_forget_multi_spec W s k fs HF ltac:(lia) Hl1 Hl2) as (t & E2 & _). rewrite E2 in E. injection E as <- <-. left; reflexivity.
  - unfold h_getattr in E. destruct (getattr (s_db s) x); injection E as <- <-; left; reflexivity.
  - destruct (h_readlink_total W s k b x HF) as (s2 & l & E2 & Hc). rewrite E2 in E. injection E as <- <-. destruct (readlink_way W s k b x _ _ HF ltac:(lia) Hc) as [_ [->|(t & -> & _)]]; left; reflexivity.
  - destruct Hl as [Hk Hb]. destruct (h_opendir_total W s k b x HF Hk ltac:(lia)) as (s2 & l & E2 & Hc & Hs). rewrite E2 in E. injection E as <- <-. destruct Hs as [->|(t & -> & _)]; left; reflexivity.
  - destruct (h_readdir_total s x size off H) as (l & E2 & _). rewrite E2 in E. injection E as <- <-. left; reflexivity.
  - injection E as <- <-. left; reflexivity.
  - injection E as <- <-. left. cbn [s_plus]. apply lookup_insert_ne. intros ->. exact (Hq x eq_refl).
  - destruct (s_plus s !! id') as [[snap' dir']|] eqn:Hid'; [|contradiction]. destruct (h_plus_total W s k id' size off snap' dir' HF Hid' ltac:(lia)) as (l & e & pre & post & rep & _ & _ & E2 & _). rewrite E2 in E. injection E as <- <-. cbn [s_plus].
    destruct (decide (id = id')) as [->|Hne]; [right; apply lookup_delete|left; apply lookup_delete_ne; congruence].
  - injection E as <- <-. left; reflexivity.
  - destruct (open_cache root (s_db s)) as [[d r]| | |] eqn:Eo; try discriminate. cbn [obind] in E. injection E as <- <-. right. apply lookup_empty.
Qed.
Lemma goes_app W s k h1 h2 W2 s2 k2 : goes W s k (h1 ++ h2) W2 s2 k2 -> exists W1 s1 k1, goes W s k h1 W1 s1 k1 /\ goes W1 s1 k1 h2 W2 s2 k2.
Proof.
  revert W s k. induction h1 as [|e h1 IH]; intros W s k H; [exists W, s, k; split; [constructor|exact H]|]. cbn [app] in H. inversion H; subst. destruct (IH _ _ _ H12) as (W1 & s1 & k1 & A & B). exists W1, s1, k1. split; [|exact B]. econstructor; eassumption.
Qed.
Lemma goes_hist W s k es W2 s2 k2 : goes W s k es W2 s2 k2 -> forall h, hist W s k h -> hist W2 s2 k2 (h ++ es).
Proof.
  induction 1 as [W s k|W s k q s' o sent es W2 s2 k2 A1 A2 A3 A4 A5 IH]; intros h Hh; [rewrite app_nil_r; exact Hh|].
  replace (h ++ Ev s q sent :: es) with ((h ++ [Ev s q sent]) ++ es) by (rewrite <- app_assoc; reflexivity). apply IH. econstructor; eassumption.
Qed.
Lemma goes_snap W s k es W2 s2 k2 id : goes W s k es W2 s2 k2 -> (forall e z, e ∈ es -> ev_q e <> QPlusBegin id z) -> forall h v, hist W s k h ->
  s_plus s !! id = v -> s_plus s2 !! id = v \/ s_plus s2 !! id = None.
Proof.
  induction 1 as [W s k|W s k q s' o sent es W2 s2 k2 A1 A2 A3 A4 A5 IH]; intros Hq h v Hh Hv; [left; exact Hv|].
  assert (H1 : hist (W + weight s q) s' (kstep k q sent) (h ++ [Ev s q sent])) by (econstructor; eassumption). destruct (hist_inv _ _ _ _ Hh) as (HF & _).
  assert (Hq' : forall e z, e ∈ es -> ev_q e <> QPlusBegin id z) by (intros e z He; apply Hq; right; exact He).
  destruct (plus_snap_step _ _ _ _ _ _ id HF A1 A2 A3) as [E|E]; [intros z; apply (Hq (Ev s q sent) z); left|..].
  - apply (IH Hq' _ _ H1). congruence.
  - destruct (IH Hq' _ _ H1 E) as [?|?]; right; assumption.
Qed.
Lemma goes_under_end W s k hs W2 s2 k2 : goes W s k hs W2 s2 k2 -> forall h x p, hist W s k h -> under (s_db s) x p -> under (s_db s2) x p.
Proof.
  induction 1 as [W s k|W s k q s' o sent es W2 s2 k2 A1 A2 A3 A4 A5 IH]; intros h x p H Hu; [exact Hu|].
  destruct (hist_inv _ _ _ _ H) as (HF & HA & HW). assert (H1 : hist (W + weight s q) s' (kstep k q sent) (h ++ [Ev s q sent])) by (econstructor; eassumption).
  destruct (hist_inv _ _ _ _ H1) as (HF1 & _). eapply IH; [exact H1|]. exact (under_step _ _ _ _ _ _ _ _ HF HA A1 A2 A3 Hu (dr_inv _ _ _ (fi_dr _ _ _ HF1))).
Qed.

(** ** one reply *)
Definition kp_ino (y : kplus) : Z := ke_ino (kp_ent y).
(** the attributes that an entry of a readdirplus reply carries *)
Definition carries (y : kplus) (a : attrs) : Prop :=
  kp_size y = a_size a /\ kp_mtime y = w64 (a_mtime a).1 /\ kp_mode y = a_mode a /\ kp_uid y = a_uid a /\ kp_gid y = a_gid a /\ ke_type (kp_ent y) = ktype a.
(** [d]: the snapshot, [s]: the state at the time of the reply *)
Record plus_facts (d : db) (s : fstate) (x p size off : Z) (b : bytes) : Prop := {
  pf_sorted : StronglySorted (beyond x p) (map kp_ino (kernel_reads_plus b));
  pf_entry : forall y, y ∈ kernel_reads_plus b -> ke_off (kp_ent y) = kp_ino y /\ kp_node y = kp_ino y /\ kp_attr_ino y = kp_ino y /\ u64 (kp_ino y) /\ kp_ino y <> 0 /\ beyond x p off (kp_ino y) /\
    inl d x p (kp_ino y) (ke_name (kp_ent y)) /\ (special (ke_name (kp_ent y)) \/ has_inode (s_db s) (kp_ino y)) /\ exists a, getattr d (kp_ino y) = Ok a /\ carries y a;
  pf_cover : forall c n, inl d x p c n -> beyond x p off c -> special n \/ doomed (s_refs s) c = false ->
    c ∈ map kp_ino (kernel_reads_plus b) \/ (exists y, last (kernel_reads_plus b) = Some y /\ beyond x p (kp_ino y) c) \/
    kernel_reads_plus b = [] /\ exists c0 n0, inl d x p c0 n0 /\ beyond x p off c0 /\ size <= direntplus_size n0 }.
Lemma filter_sorted {A} (R : A -> A -> Prop) (P : A -> Prop) `{!forall x, Decision (P x)} l : StronglySorted R l -> StronglySorted R (filter P l).
Proof.
  induction 1 as [|a l Hs IH Ha]; [constructor|]. rewrite filter_cons. destruct (decide (P a)); [|exact IH]. constructor; [exact IH|]. rewrite Forall_forall in Ha. apply Forall_forall. intros y Hy. apply elem_of_list_filter in Hy as [_ Hy]. auto.
Qed.
Lemma sorted_map {A B} (R : B -> B -> Prop) (f : A -> B) l : StronglySorted R (map f l) <-> StronglySorted (fun a b => R (f a) (f b)) l.
Proof.
  induction l as [|a l IH]; cbn [map]; [split; constructor|]. split; intros H; apply StronglySorted_inv in H as [H1 H2]; (constructor; [apply IH; exact H1|]); rewrite Forall_forall in H2; apply Forall_forall.
  - intros y Hy. apply H2. apply elem_of_list_fmap. eauto.
  - intros y Hy. apply elem_of_list_fmap in Hy as (z & -> & Hz). auto.
Qed.
Lemma plus_reply W s k h id size off b snap x p : hist W s k h -> enough W s (QPlusRun id size off) -> s_plus s !! id = Some (snap, x) ->
  has_inode snap x -> parent_of snap x = Ok p -> p <> 0 ->
  forall s', h_plus s id size off = Done (s', [RBuf b]) ->
  plus_facts snap s x p size (w64 off) b.
Proof.
  intros H Hen Hid Hh Hp Hp0 s' E. destruct (hist_inv _ _ _ _ H) as (HF & HA & HW). unfold enough in Hen. assert (H63 : 2 ^ 63 < 2 ^ 64) by lia. pose proof (proj1 (fi_snap _ _ _ HF _ _ _ Hid)) as Hi.
  destruct (h_plus_total W s k id size off snap x HF Hid ltac:(lia)) as (l & e & pre & post & rep & Hs & Hf & E2 & _ & _ & Hrep). rewrite E2 in E. injection E as _ E. subst rep.
  assert (Hx : u64 x) by (apply has_inode_iff in Hh as [i Hi']; apply (inode_range _ _ _ Hi Hi')).
  assert (Ho : u64 (w64 off)) by (unfold u64, w64; apply Z.mod_pos_bound; lia).
  destruct Hrep as [[Eb Hrest]|(Eb & _)]; [|discriminate Eb]. injection Eb as ->.
  destruct (scan_rest snap x p (w64 off) l e Hi Hx Hh Hp Hp0 Hs Ho) as (-> & Hsorted & Hall & Hcov).
  assert (Hbe : Forall bent_ok (filter (kept (s_refs s)) (map to_bent l))) by (cbn [weight] in Hen; eapply (plus_bents W s k); [exact HF|exact HA|lia|exact Hid|exact Hs]).
  assert (Hbp : Forall bent_ok pre) by (eapply fits_sub; eassumption). pose proof (reads_plus pre Hbp) as Hreads.
  destruct Hf as (El & Hf1 & Hf2).
  assert (Hmem : forall b, b ∈ pre ++ post <-> kept (s_refs s) b /\ exists c n a, b = to_bent (c, n, a) /\ (c, n, a) ∈ l).
  { intros b. rewrite <- El, elem_of_list_filter. split; intros [A B]; (split; [exact A|]).
    - apply elem_of_list_fmap in B as ([[c n] a] & -> & B). eauto.
    - destruct B as (c & n & a & -> & B). apply elem_of_list_fmap. eauto. }
  assert (Hinos : forall L, map kp_ino (map want_plus L) = map be_ino L) by (intros L; rewrite map_map; reflexivity).
  assert (Hso : StronglySorted (beyond x p) (map be_ino (pre ++ post))).
  { rewrite <- El. apply sorted_map, filter_sorted. apply -> (sorted_map (beyond x p) be_ino). rewrite map_map. replace (map (fun y => be_ino (to_bent y)) l) with (inos l); [exact Hsorted|]. unfold inos. apply map_ext. intros [[? ?] ?]. reflexivity. }
  rewrite map_app in Hso. destruct (sorted_split _ _ _ Hso) as [Hs1 Hs2]. split.
  - rewrite Hreads, Hinos. exact Hs1.
  - intros y Hy. rewrite Hreads in Hy. apply elem_of_list_fmap in Hy as (b & -> & Hb). destruct (proj1 (Hmem b)) as (Hk & c & n & a & -> & Hc); [set_solver|].
    destruct (Hall c n a Hc) as (H1 & H2 & H3). destruct (inl_has _ _ _ _ _ Hi Hp Hp0 Hx Hh H1) as (_ & Hc1 & Hcu).
    unfold kp_ino. cbn [to_bent want_plus want kp_ent kp_node kp_attr_ino ke_ino ke_off ke_name be_ino be_off be_name be_attr]. unfold w64 at 1. rewrite Z.mod_small by exact Hcu.
    split; [reflexivity|]. split; [reflexivity|]. split; [reflexivity|]. split; [exact Hcu|]. split; [lia|]. split; [exact H2|]. split; [exact H1|]. split; [destruct Hk as [?|Hk]; [left; assumption|right]; destruct (proj2 (fi_snap _ _ _ HF _ _ _ Hid)) as (Hcv & _); apply getattr_Ok in H3 as (i & Hi3 & _); destruct (Hcv _ _ Hi3) as [(j & Hj & _)|Hd]; [apply has_inode_iff; eauto|cbn [to_bent be_ino] in Hk; congruence]|]. exists a. split; [exact H3|]. repeat split.
  - intros c n Hin Hb' Hkc. rewrite Hreads, Hinos. pose proof (Hcov c n Hin Hb') as Hc. unfold inos in Hc. apply elem_of_list_fmap in Hc as ([[c' n'] a'] & E1 & Hc). cbn in E1. subst c'.
    destruct (Hall c n' a' Hc) as (Hin' & _). assert (n' = n) as -> by (eapply inl_fun; eassumption).
    assert (Hcp : to_bent (c, n, a') ∈ pre ++ post) by (apply Hmem; split; [exact Hkc|eauto]). apply elem_of_app in Hcp as [Hcp|Hcp]; [left; apply elem_of_list_fmap; exists (to_bent (c, n, a')); split; [reflexivity|exact Hcp]|].
    right. destruct (last pre) as [bl|] eqn:Elast.
    + left. exists (want_plus bl). apply last_Some in Elast as [pre' ->]. split; [rewrite !map_app; apply last_snoc|]. change (kp_ino (want_plus bl)) with (be_ino bl). apply Hs2; [rewrite map_app; apply elem_of_app; right; left|].
      apply elem_of_list_fmap. exists (to_bent (c, n, a')). split; [reflexivity|exact Hcp].
    + right. apply last_None in Elast as ->. cbn [map]. split; [reflexivity|]. destruct post as [|b0 post]; [inversion Hcp|]. destruct (proj1 (Hmem b0)) as (_ & c0 & n0 & a0 & -> & Hc0); [left|]. destruct (Hall _ _ _ Hc0) as (H1 & H2 & _). exists c0, n0. split; [exact H1|]. split; [exact H2|].
      destruct (Z_lt_le_dec 0 size) as [H0|H0]; [|pose proof (direntplus_size_pos n0); lia]. destruct (Hf1 H0) as [_ H3]. cbn in H3. lia.
Qed.

(** ** a client that reads a directory from the start to the end *)
(** [stream_plus x off hs l]: among the events [hs], in this order, are readdirplus requests for
    [x], each with an id of its own while it runs, which read on from [off], each continuing at
    the offset of the last entry received, until an empty reply; [l] is what they received.  The
    second half of a request may come any time after the first; anything may happen in between. *)
Inductive stream_plus (x : Z) : Z -> list event -> list kplus -> Prop :=
| sp_other off e hs l : stream_plus x off hs l -> stream_plus x off (e :: hs) l
| sp_some off id s0 sent0 mid s size b y ys hs l : (forall e z, e ∈ mid -> ev_q e <> QPlusBegin id z) ->
    kernel_reads_plus b = ys ++ [y] -> stream_plus x (ke_off (kp_ent y)) hs l ->
    stream_plus x off (Ev s0 (QPlusBegin id x) sent0 :: mid ++ Ev s (QPlusRun id size off) [RBuf b] :: hs) (ys ++ [y] ++ l)
| sp_end off id s0 sent0 mid s size hs : (forall e z, e ∈ mid -> ev_q e <> QPlusBegin id z) ->
    stream_plus x off (Ev s0 (QPlusBegin id x) sent0 :: mid ++ Ev s (QPlusRun id size off) [RBuf []] :: hs) [].
(** The buffer is larger than the record of every entry: "." and ".." take 160 bytes, a name takes
    152 bytes plus its length, rounded up to a multiple of 8. *)
Definition roomy_plus (d : db) (x size : Z) : Prop := 160 < size /\ forall c n, lookup d x n = Ok c -> direntplus_size n < size.
Lemma direntplus_size_max n : Z.of_nat (length n) <= 503 -> direntplus_size n <= 656.
Proof. intros H. unfold direntplus_size, align8. assert ((152 + Z.of_nat (length n) + 7) / 8 <= 82); [|lia]. assert ((152 + Z.of_nat (length n) + 7) / 8 < 83); [|lia]. apply Z.div_lt_upper_bound; lia. Qed.
Lemma roomy_plus_all d x size : Inv d -> u64 x -> 656 < size -> roomy_plus d x size.
Proof.
  intros H Hx Hs. split; [lia|]. intros c n Hl. apply lookup_treei in Hl as (e & He & <-); [|assumption..]. destruct (inv_treei _ H _ _ _ He) as (_ & _ & _ & _ & _ & Hn).
  destruct (inv_treen _ H _ _ _ Hn) as (_ & Hv & _). pose proof (direntplus_size_max (de_name e) (valid_name_len _ Hv)). lia.
Qed.
Lemma roomy_plus_inl d x p size c n : Inv d -> u64 x -> roomy_plus d x size -> inl d x p c n -> direntplus_size n < size.
Proof.
  intros H Hx [H1 H2] [[_ ->]|[(_ & _ & ->)|Hi]]; [exact H1|exact H1|]. apply (H2 c). apply lookup_treei; [assumption..|]. apply elem_dir_entries. exact Hi.
Qed.
(** what is listed in the database is not doomed *)
Lemma inl_kept W s k x p c n : FInv W s k -> u64 x -> has_inode (s_db s) x -> parent_of (s_db s) x = Ok p -> p <> 0 -> inl (s_db s) x p c n -> special n \/ doomed (s_refs s) c = false.
Proof.
  intros HF Hx Hh Hp Hp0 Hi. right. pose proof (dr_inv _ _ _ (fi_dr _ _ _ HF)) as H. destruct (inl_has _ _ _ _ _ H Hp Hp0 Hx Hh Hi) as (Hc & _).
  destruct (doomed (s_refs s) c) eqn:Ed; [|reflexivity]. exfalso. destruct (dr_doom _ _ _ (fi_dr _ _ _ HF) _ Ed) as [Hn _]. apply has_inode_iff in Hc as [i Hi']. congruence.
Qed.
(** one request of the stream *)
Lemma plus_request x p off id s0 sent0 mid s size b hs W s' k h W2 s2 k2 : u64 off -> (forall e z, e ∈ mid -> ev_q e <> QPlusBegin id z) ->
  hist W s' k h -> goes W s' k (Ev s0 (QPlusBegin id x) sent0 :: mid ++ Ev s (QPlusRun id size off) [RBuf b] :: hs) W2 s2 k2 -> under (s_db s') x p ->
  asked s0 x <> None -> asked s x <> None ->
  exists W1 s1 k1 h1, hist W1 s1 k1 h1 /\ goes W1 s1 k1 hs W2 s2 k2 /\ under (s_db s1) x p /\ u64 x /\ p <> 0 /\
    Inv (s_db s0) /\ parent_of (s_db s0) x = Ok p /\ has_inode (s_db s0) x /\
    plus_facts (s_db s0) s x p size off b /\
    (forall c n, inl (s_db s) x p c n -> special n \/ doomed (s_refs s) c = false).
Proof.
  intros Hoff Hmid H Hg Hu Ha0 Ha. inversion Hg as [|Wa sa ka qa s1 oa senta es W2' s2' k2' A1 A2 A3 A4 Hg1]; subst.
  assert (H1 : hist (W + weight s0 (QPlusBegin id x)) s1 (kstep k (QPlusBegin id x) sent0) (h ++ [Ev s0 (QPlusBegin id x) sent0])) by (econstructor; eassumption).
  destruct (hist_inv _ _ _ _ H) as (HF0 & HA0 & _). pose proof (dr_inv _ _ _ (fi_dr _ _ _ HF0)) as Hi0. destruct (hist_inv _ _ _ _ H1) as (HF1 & _). pose proof (dr_inv _ _ _ (fi_dr _ _ _ HF1)) as Hi1.
  assert (Hu1 : under (s_db s1) x p) by exact (under_step _ _ _ _ _ _ _ _ HF0 HA0 A1 A2 A3 Hu Hi1).
  destruct (asked s0 x) as [pp0|] eqn:E0; [|contradiction]. destruct (under_parent _ _ _ _ Hi0 Hu E0) as (Hp0 & Hpn0 & Hh0).
  assert (Hx : u64 x) by (apply has_inode_iff in Hh0 as [i Hi']; apply (inode_range _ _ _ Hi0 Hi')).
  cbn [fstep] in A3. injection A3 as <- <-. destruct (goes_app _ _ _ _ _ _ _ _ Hg1) as (Wm & sm & km & Hgm & Hgr).
  pose proof (goes_hist _ _ _ _ _ _ _ Hgm _ H1) as Hm. pose proof (goes_under_end _ _ _ _ _ _ _ Hgm _ _ _ H1 Hu1) as Hum.
  inversion Hgr as [|Wb sb kb qb s3 ob sentb es0 W2'' s2'' k2'' B1 B2 B3 B4 Hg3]; subst.
  destruct (hist_inv _ _ _ _ Hm) as (HFm & HAm & _). pose proof (dr_inv _ _ _ (fi_dr _ _ _ HFm)) as Him.
  destruct (asked s x) as [pp|] eqn:E; [|contradiction]. destruct (under_parent _ _ _ _ Him Hum E) as (Hpm & _ & Hhm).
  assert (Hid : s_plus s !! id = Some (s_db s0, x)).
  { destruct (goes_snap _ _ _ _ _ _ _ id Hgm Hmid _ _ H1 eq_refl) as [Hv|Hv]; cbn [klegal] in B1; [|contradiction]. rewrite Hv. cbn [s_plus]. apply lookup_insert. }
  assert (H3 : hist (Wm + weight s (QPlusRun id size off)) s3 (kstep km (QPlusRun id size off) [RBuf b]) (((h ++ [Ev s0 (QPlusBegin id x) sent0]) ++ mid) ++ [Ev s (QPlusRun id size off) [RBuf b]])) by (econstructor; eassumption).
  destruct (hist_inv _ _ _ _ H3) as (HF3 & _). pose proof (dr_inv _ _ _ (fi_dr _ _ _ HF3)) as Hi3.
  eexists _, s3, _, _. split; [exact H3|]. split; [exact Hg3|]. split; [exact (under_step _ _ _ _ _ _ _ _ HFm HAm B1 B2 B3 Hum Hi3)|]. split; [exact Hx|]. split; [exact Hpn0|]. split; [exact Hi0|]. split; [exact Hp0|]. split; [exact Hh0|]. split.
  - pose proof B2 as B2'. unfold enough in B2'. assert (H63 : 2 ^ 63 < 2 ^ 64) by lia. destruct (h_plus_total Wm s km id size off _ _ HFm Hid ltac:(lia)) as (l & e & pre & post & rep & _ & _ & E2 & _).
    cbn [fstep] in B3. rewrite E2 in B3. injection B3 as <- <-. cbn [sent_of] in B4. rewrite answer_one in B4. injection B4 as ->.
    replace off with (w64 off) by (apply Z.mod_small; exact Hoff). eapply plus_reply; [exact Hm|exact B2|exact Hid|exact Hh0|exact Hp0|exact Hpn0|exact E2].
  - intros c n. eapply inl_kept; eassumption.
Qed.
Lemma under_start_db s x p : Inv (s_db s) -> under (s_db s) x p -> asked s x <> None -> parent_of (s_db s) x = Ok p /\ has_inode (s_db s) x /\ p <> 0.
Proof. intros H Hu Ha. destruct (asked s x) as [pp|] eqn:E; [|contradiction]. destruct (under_parent _ _ _ _ H Hu E) as (? & ? & ?). auto. Qed.
Lemma stream_plus_ok x p off hs l : stream_plus x off hs l -> u64 off -> forall W s k h W2 s2 k2, hist W s k h -> goes W s k hs W2 s2 k2 -> under (s_db s) x p ->
  (forall e, e ∈ hs -> asked (ev_s e) x <> None) ->
  (forall e e' id size o, e ∈ hs -> e' ∈ hs -> ev_q e = QPlusBegin id x -> ev_q e' = QPlusRun id size o -> roomy_plus (s_db (ev_s e)) x size) ->
  StronglySorted (beyond x p) (map kp_ino l) /\
  (forall y, y ∈ l -> kp_ino y <> 0 /\ beyond x p off (kp_ino y) /\ kp_node y = kp_ino y /\ kp_attr_ino y = kp_ino y /\ ke_off (kp_ent y) = kp_ino y /\
    exists e e', e ∈ hs /\ e' ∈ hs /\ (exists id size o, ev_q e = QPlusBegin id x /\ ev_q e' = QPlusRun id size o) /\ Inv (s_db (ev_s e)) /\ parent_of (s_db (ev_s e)) x = Ok p /\ inl (s_db (ev_s e)) x p (kp_ino y) (ke_name (kp_ent y)) /\
      (special (ke_name (kp_ent y)) \/ has_inode (s_db (ev_s e')) (kp_ino y)) /\ exists a, getattr (s_db (ev_s e)) (kp_ino y) = Ok a /\ carries y a) /\
  (forall c n, (forall e, e ∈ hs -> inl (s_db (ev_s e)) x p c n) -> beyond x p off c -> c ∈ map kp_ino l).
Proof.
  induction 1 as [off e hs l Hst IH|off id s0 sent0 mid s3 size b y ys hs l Hmid Hk Hst IH|off id s0 sent0 mid s3 size hs Hmid]; intros Hoff W s k h W2 s2 k2 H Hg Hu Hall Hroom.
  - inversion Hg as [|W' s' k' q s1 o sent es W2' s2' k2' Hl Hen E Ea Hg']; subst.
    assert (H1 : hist (W + weight s q) s1 (kstep k q sent) (h ++ [Ev s q sent])) by (econstructor; eassumption).
    destruct (hist_inv _ _ _ _ H) as (HF & HA & HW). destruct (hist_inv _ _ _ _ H1) as (HF1 & _). pose proof (dr_inv _ _ _ (fi_dr _ _ _ HF1)) as Hi1.
    destruct (IH Hoff _ _ _ _ _ _ _ H1 Hg' (under_step _ _ _ _ _ _ _ _ HF HA Hl Hen E Hu Hi1)) as (A1 & A2 & A3).
    { intros e He. apply Hall. right. exact He. } { intros e e' i sz o' He He'. apply Hroom; right; assumption. }
    split; [exact A1|]. split.
    + intros y Hy. destruct (A2 y Hy) as (B0 & B1 & Bn & Ba & Bo & e & e' & B2 & B2' & B3). split; [exact B0|]. split; [exact B1|]. split; [exact Bn|]. split; [exact Ba|]. split; [exact Bo|]. exists e, e'. split; [right; exact B2|]. split; [right; exact B2'|exact B3].
    + intros c n Hc. apply (A3 c n). intros e He. apply Hc. right. exact He.
  - assert (Hin0 : Ev s0 (QPlusBegin id x) sent0 ∈ Ev s0 (QPlusBegin id x) sent0 :: mid ++ Ev s3 (QPlusRun id size off) [RBuf b] :: hs) by left.
    assert (Hin3 : Ev s3 (QPlusRun id size off) [RBuf b] ∈ Ev s0 (QPlusBegin id x) sent0 :: mid ++ Ev s3 (QPlusRun id size off) [RBuf b] :: hs) by (right; apply elem_of_app; right; left).
    assert (Hinr : forall e, e ∈ hs -> e ∈ Ev s0 (QPlusBegin id x) sent0 :: mid ++ Ev s3 (QPlusRun id size off) [RBuf b] :: hs) by (intros e He; right; apply elem_of_app; right; right; exact He).
    destruct (plus_request x p off id s0 sent0 mid s3 size b hs W s k h W2 s2 k2 Hoff Hmid H Hg Hu (Hall _ Hin0) (Hall _ Hin3)) as (W1 & s1 & k1 & h1 & H1 & Hg1 & Hu1 & Hx & Hp0 & Hi0 & Hpar & Hh & HR & Hkept).
    assert (Hy : y ∈ kernel_reads_plus b) by (rewrite Hk; set_solver). destruct (pf_entry _ _ _ _ _ _ _ HR y Hy) as (Hyo & _ & _ & Hyu & Hy0 & Hyb & _).
    rewrite Hyo in *. destruct (IH Hyu _ _ _ _ _ _ _ H1 Hg1 Hu1) as (A1 & A2 & A3). { intros e He. apply Hall. apply Hinr, He. } { intros e e' i sz o' He He'. apply Hroom; apply Hinr; assumption. }
    pose proof (pf_sorted _ _ _ _ _ _ _ HR) as Hs. rewrite Hk in Hs. rewrite app_assoc. split; [|split].
    + rewrite map_app. apply sorted_join; [exact Hs|exact A1|]. intros c c' Hc1 Hc2. apply elem_of_list_fmap in Hc2 as (z & -> & Hz). destruct (A2 z Hz) as (_ & Hzb & _).
      rewrite map_app in Hc1, Hs. apply elem_of_app in Hc1 as [Hc1|Hc1]; [|apply elem_of_list_singleton in Hc1 as ->; exact Hzb].
      apply (beyond_trans x p c (kp_ino y)); [exact Hy0| |exact Hzb]. apply (proj2 (sorted_split _ _ _ Hs)); [exact Hc1|cbn; left].
    + intros z Hz. apply elem_of_app in Hz as [Hz|Hz].
      * rewrite <- Hk in Hz. destruct (pf_entry _ _ _ _ _ _ _ HR z Hz) as (B1 & B2 & B3 & _ & B4 & B5 & B6 & B7 & B8). do 5 (split; [assumption|]). eexists _, _. split; [exact Hin0|]. split; [exact Hin3|]. cbn [ev_s ev_q]. split; [eauto|]. auto 10.
      * destruct (A2 z Hz) as (B0 & B1 & Bn & Ba & Bo & e & e' & B2 & B2' & B3). split; [exact B0|]. split; [eapply beyond_trans; [exact Hy0|exact Hyb|exact B1]|]. do 3 (split; [assumption|]). exists e, e'. split; [apply Hinr, B2|]. split; [apply Hinr, B2'|exact B3].
    + intros c n Hin Hb. rewrite map_app. apply elem_of_app. destruct (pf_cover _ _ _ _ _ _ _ HR c n (Hin _ Hin0) Hb (Hkept c n (Hin _ Hin3))) as [B|[(z & B1 & B2)|[B _]]].
      * left. rewrite Hk in B. exact B.
      * right. rewrite Hk, last_snoc in B1. injection B1 as <-. apply (A3 c n); [|exact B2]. intros e He. apply Hin, Hinr, He.
      * rewrite Hk in B. destruct ys; discriminate B.
  - assert (Hin0 : Ev s0 (QPlusBegin id x) sent0 ∈ Ev s0 (QPlusBegin id x) sent0 :: mid ++ Ev s3 (QPlusRun id size off) [RBuf []] :: hs) by left.
    assert (Hin3 : Ev s3 (QPlusRun id size off) [RBuf []] ∈ Ev s0 (QPlusBegin id x) sent0 :: mid ++ Ev s3 (QPlusRun id size off) [RBuf []] :: hs) by (right; apply elem_of_app; right; left).
    destruct (plus_request x p off id s0 sent0 mid s3 size [] hs W s k h W2 s2 k2 Hoff Hmid H Hg Hu (Hall _ Hin0) (Hall _ Hin3)) as (W1 & s1 & k1 & h1 & H1 & Hg1 & Hu1 & Hx & Hp0 & Hi0 & Hpar & Hh & HR & Hkept).
    split; [constructor|]. split; [intros y Hy; inversion Hy|]. intros c n Hin Hb. exfalso.
    destruct (pf_cover _ _ _ _ _ _ _ HR c n (Hin _ Hin0) Hb (Hkept c n (Hin _ Hin3))) as [B|[(z & B1 & B2)|[_ (c0 & n0 & B1 & B2 & B3)]]]; [inversion B|discriminate B1|].
    pose proof (roomy_plus_inl _ _ _ _ _ _ Hi0 Hx (Hroom _ _ _ _ _ Hin0 Hin3 eq_refl eq_refl) B1). lia.
Qed.
