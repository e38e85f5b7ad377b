(** Reading a directory in pieces while other requests change it. *)
From Verif Require Export FsPlay.

(** ** the order in which a directory is listed *)
(** all entries of the directory [x] in [p]: ".", ".." (not for the root) and the children *)
Definition inl (d : db) (x p c : Z) (n : bytes) : Prop :=
  c = x /\ n = DOT \/ p <> x /\ c = p /\ n = DOTDOT \/ (c, n) ∈ dir_entries d x.
Definition rank (x p c : Z) : Z := if c =? x then 0 else if c =? p then 1 else 2.
(** [c] comes after the offset [off]; children in the order of their keys *)
Definition beyond (x p off c : Z) : Prop :=
  off = 0 \/ rank x p off < rank x p c \/ rank x p off = 2 /\ rank x p c = 2 /\ blt (le64 off) (le64 c).
Lemma beyond_irrefl x p c : c <> 0 -> ~ beyond x p c c.
Proof. intros H [?|[?|(_ & _ & Hb)]]; [contradiction|lia|]. exact (blt_irrefl _ Hb). Qed.
Lemma beyond_trans x p a b c : b <> 0 -> beyond x p a b -> beyond x p b c -> beyond x p a c.
Proof.
  intros Hb [?|[H1|(H1 & H2 & H3)]]; [left; assumption|..]; intros [?|[H4|(H4 & H5 & H6)]]; try contradiction; right; [left; lia..|].
  right. split; [assumption|]. split; [assumption|]. eapply blt_trans; eassumption.
Qed.
Lemma rank_range x p c : 0 <= rank x p c <= 2.
Proof. unfold rank. destruct (c =? x); [lia|]. destruct (c =? p); lia. Qed.
Lemma child_facts d x p c n : Inv d -> parent_of d x = Ok p -> (c, n) ∈ dir_entries d x -> u64 c /\ 1 <= x < c /\ p < c /\ rank x p c = 2 /\ valid_name n.
Proof.
  intros H Hp Hin. apply elem_dir_entries in Hin as (e & He & <-). destruct (inv_treei _ H _ _ _ He) as (_ & Hc1 & Hpc & _ & _ & Hn).
  destruct (treei_u64 _ _ _ H He) as [_ Hu]. cbn in Hu. split; [assumption|]. split; [lia|].
  assert (Hlt : p < c) by (destruct (parent_lt _ _ _ H Hp) as [[-> ->]|[[? ->]|[? ?]]]; lia). split; [lia|].
  split; [unfold rank; destruct (Z.eqb_spec c x); [lia|]; destruct (Z.eqb_spec c p); [lia|reflexivity]|]. apply (inv_treen _ H _ _ _ Hn).
Qed.
Lemma ble_enc x a b : ble (enc_ii (x, a)) (enc_ii (x, b)) <-> ble (le64 a) (le64 b).
Proof. unfold enc_ii, ble. cbn [fst snd]. rewrite bcmp_app by reflexivity. rewrite bcmp_refl. tauto. Qed.
Lemma sorted_app_inv {A} (R : A -> A -> Prop) pre a post : StronglySorted R (pre ++ a :: post) -> Forall (R a) post.
Proof. induction pre as [|b pre IH]; cbn; intros H; inversion H; subst; auto. Qed.
(** a key of another directory ends the entries of [x]; keys of [x] increase *)
Lemma from_children d x b pre q c e post : Inv d -> u64 x -> ble (le64 x) b -> from_key enc_ii (d_treei d) b = pre ++ ((q, c), e) :: post ->
  forall c' e', ((x, c'), e') ∈ post -> q = x /\ blt (le64 c) (le64 c').
Proof.
  intros H Hx Hb E c' e' Hin. pose proof (from_sorted enc_ii (d_treei d) b) as Hs. rewrite E in Hs. apply sorted_app_inv in Hs. rewrite Forall_forall in Hs. specialize (Hs _ Hin). unfold kle in Hs. cbn [fst] in Hs.
  assert (Hq : ((q, c), e) ∈ from_key enc_ii (d_treei d) b) by (rewrite E; set_solver). apply elem_of_from in Hq as [Hq Hbq].
  assert (Hi : ((x, c'), e') ∈ from_key enc_ii (d_treei d) b) by (rewrite E; set_solver). apply elem_of_from in Hi as [Hi _].
  destruct (treei_u64 _ _ _ H Hq) as [Uq Uc]. destruct (treei_u64 _ _ _ H Hi) as [_ Uc']. cbn in *.
  destruct (decide (q = x)) as [->|Hne].
  - split; [reflexivity|]. apply ble_enc in Hs. apply ble_lt_eq in Hs as [Hs|Hs]; [exact Hs|]. apply le64_inj in Hs; [|assumption..]. subst c'. exfalso.
    assert (Hnd : NoDup (map fst (from_key enc_ii (d_treei d) b))) by (unfold from_key; apply NoDup_fst_filter, (NoDup_entries enc_ii)). rewrite E, map_app in Hnd. apply NoDup_app in Hnd as (_ & _ & Hnd). cbn in Hnd. apply NoDup_cons in Hnd as [Hnd _].
    apply Hnd. apply elem_of_list_fmap. exists ((x, c), e'). auto.
  - exfalso. assert (Hlt : blt (enc_ii (x, c')) (enc_ii (q, c))). { unfold enc_ii. cbn [fst snd]. apply scan_after; auto. eapply ble_trans; [exact Hb|exact Hbq]. }
    apply (blt_irrefl (enc_ii (q, c))). eapply ble_lt_trans; [exact Hs|exact Hlt].
Qed.

Lemma sorted_split {A} (R : A -> A -> Prop) u v : StronglySorted R (u ++ v) -> StronglySorted R u /\ forall c c', c ∈ u -> c' ∈ v -> R c c'.
Proof.
  induction u as [|c u IH]; cbn; intros Hst; [split; [constructor|intros c c' Hc; inversion Hc]|]. inversion Hst as [|? ? Ha Hb']; subst. destruct (IH Ha) as [I1 I2]. apply Forall_app in Hb' as [B1 B2].
  split; [constructor; assumption|]. intros c1 c2 H1 H2. apply elem_of_cons in H1 as [->|H1]; [rewrite Forall_forall in B2; auto|auto].
Qed.
(** readdir gives the next entry after the offset *)
Lemma readdir_least d x p off : Inv d -> u64 x -> u64 off -> parent_of d x = Ok p -> p <> 0 ->
  match readdir d x off with
  | Ok (c, n) => inl d x p c n /\ beyond x p off c /\ forall c' n', inl d x p c' n' -> beyond x p off c' -> c' = c \/ beyond x p c c'
  | Err e => e = 0 /\ forall c' n', inl d x p c' n' -> ~ beyond x p off c'
  end.
Proof.
  intros H Hx Ho Hp Hp0. pose proof (parent_lt _ _ _ H Hp) as Hpl. unfold readdir. destruct (Z.eqb_spec off 0) as [->|Hoff].
  { split; [left; auto|]. split; [left; reflexivity|]. intros c' n' Hin _. destruct (decide (c' = x)) as [->|Hne]; [left; reflexivity|]. right. right. left. unfold rank. rewrite Z.eqb_refl. destruct (Z.eqb_spec c' x); [contradiction|]. destruct (c' =? p); lia. }
  rewrite Hp. destruct (negb (off =? p) && (off =? x)) eqn:Eb.
  { apply andb_prop in Eb as [E1 E2]. apply negb_true_iff, Z.eqb_neq in E1. apply Z.eqb_eq in E2. subst off. assert (Hr : rank x p x = 0) by (unfold rank; rewrite Z.eqb_refl; reflexivity). assert (Hrp : rank x p p = 1) by (unfold rank; destruct (Z.eqb_spec p x); [congruence|]; rewrite Z.eqb_refl; reflexivity).
    split; [right; left; auto|]. split; [right; left; lia|]. intros c' n' Hin [?|[Hb|(Hb & _)]]; [contradiction| |lia]. destruct (decide (c' = p)) as [->|Hne]; [left; reflexivity|]. right. right. left. rewrite Hrp. unfold rank in *. destruct (Z.eqb_spec c' x); [lia|]. destruct (Z.eqb_spec c' p); [contradiction|lia]. }
  set (start := if off =? p then 0 else off). set (b := enc_ii (x, start)).
  assert (Hus : u64 start) by (unfold start; destruct (off =? p); [unfold u64; lia|assumption]).
  assert (Hb : ble (le64 x) b) by apply scan_before.
  (* what is beyond the offset: children from [start] on that are not [off] *)
  assert (Hin1 : forall c' n', inl d x p c' n' -> beyond x p off c' -> exists e', ((x, c'), e') ∈ from_key enc_ii (d_treei d) b /\ de_name e' = n' /\ c' <> off).
  { intros c' n' Hin Hbe. assert (Hch : (c', n') ∈ dir_entries d x).
    { destruct Hin as [[-> ->]|[(Hpx & -> & ->)|Hin]]; [| |exact Hin]; exfalso; unfold beyond, rank in Hbe; rewrite Z.eqb_refl in Hbe.
      - destruct Hbe as [?|[Hbe|(_ & ? & _)]]; [contradiction| |lia]. destruct (off =? x); [lia|]. destruct (off =? p); lia.
      - destruct (Z.eqb_spec p x); [contradiction|]. destruct Hbe as [?|[Hbe|(_ & ? & _)]]; [contradiction| |lia]. destruct (Z.eqb_spec off x) as [->|]; [|destruct (off =? p); lia]. destruct (Z.eqb_spec x p); [congruence|]. discriminate. }
    destruct (child_facts _ _ _ _ _ H Hp Hch) as (Uc & Hxc & Hpc & Hrk & _). apply elem_dir_entries in Hch as (e' & He' & Hn'). exists e'. split; [|split; [assumption|intros ->; exact (beyond_irrefl _ _ _ Hoff Hbe)]].
    apply elem_of_from. split; [assumption|]. apply ble_enc. unfold start. destruct (Z.eqb_spec off p) as [->|Hop]; [apply le64_zero_min|]. destruct Hbe as [?|[Hbe|(_ & _ & Hbe)]]; [contradiction| |apply ble_lt_eq; auto].
    unfold rank in Hbe. destruct (Z.eqb_spec off x); [cbn in Eb; discriminate|]. destruct (Z.eqb_spec off p); [contradiction|]. pose proof (rank_range x p c'). unfold rank in H0. lia. }
  assert (Hin2 : forall c' e', ((x, c'), e') ∈ from_key enc_ii (d_treei d) b -> c' <> off -> inl d x p c' (de_name e') /\ beyond x p off c').
  { intros c' e' Hin Hne. apply elem_of_from in Hin as [He Hle]. assert (Hch : (c', de_name e') ∈ dir_entries d x) by (apply elem_dir_entries; eauto). split; [right; right; exact Hch|].
    destruct (child_facts _ _ _ _ _ H Hp Hch) as (Uc & Hxc & Hpc & Hrk & _). right. rewrite Hrk. apply ble_enc in Hle. unfold start in Hle. unfold rank. destruct (Z.eqb_spec off x) as [->|]; [left; lia|]. destruct (Z.eqb_spec off p) as [->|Hop]; [left; lia|]. right. split; [reflexivity|]. split; [reflexivity|].
    apply ble_lt_eq in Hle as [Hle|Hle]; [exact Hle|]. apply le64_inj in Hle; [congruence|assumption..]. }
  assert (Hnext : forall pre c e post, from_key enc_ii (d_treei d) b = pre ++ ((x, c), e) :: post -> (forall c' e', ((x, c'), e') ∈ pre -> c' = off) -> c <> off ->
    inl d x p c (de_name e) /\ beyond x p off c /\ forall c' n', inl d x p c' n' -> beyond x p off c' -> c' = c \/ beyond x p c c').
  { intros pre c e post El Hpre Hne. destruct (Hin2 c e) as [H1 H2]; [rewrite El; set_solver|exact Hne|]. split; [exact H1|]. split; [exact H2|]. intros c' n' Hi Hbe. destruct (Hin1 _ _ Hi Hbe) as (e' & Hin' & _ & Hne'). rewrite El in Hin'.
    apply elem_of_app in Hin' as [Hin'|Hin']; [destruct (Hne' (Hpre _ _ Hin'))|]. apply elem_of_cons in Hin' as [E|Hin']; [injection E as -> _; left; reflexivity|].
    right. destruct (from_children d x b pre x c e post H Hx Hb El c' e' Hin') as [_ Hlt]. right. right.
    assert (Hc2 : forall y f, ((x, y), f) ∈ from_key enc_ii (d_treei d) b -> rank x p y = 2). { intros y f Hy. apply elem_of_from in Hy as [Hy _]. apply (child_facts d x p y (de_name f) H Hp). apply elem_dir_entries. eauto. }
    split; [apply (Hc2 c e); rewrite El; set_solver|]. split; [apply (Hc2 c' e'); rewrite El; set_solver|exact Hlt]. }
  assert (Hend : forall pre : list (Z * Z * dirent), (forall c' e', ((x, c'), e') ∈ from_key enc_ii (d_treei d) b -> ((x, c'), e') ∈ pre) -> (forall c' e', ((x, c'), e') ∈ pre -> c' = off) -> 0 = 0 /\ forall c' n', inl d x p c' n' -> ~ beyond x p off c').
  { intros pre Hall Hpre. split; [reflexivity|]. intros c' n' Hi Hbe. destruct (Hin1 _ _ Hi Hbe) as (e' & Hin' & _ & Hne). apply Hne. apply (Hpre c' e'). apply Hall. exact Hin'. }
  destruct (from_key enc_ii (d_treei d) b) as [|[[q c] e] l] eqn:El; [apply (Hend []); [auto|intros ? ? Hi; inversion Hi]|].
  destruct (Z.eqb_spec q x) as [->|Hq]; cbn [negb].
  - destruct (Z.eqb_spec c off) as [->|Hne]; [|apply (Hnext [] c e l); [reflexivity|intros ? ? Hi; inversion Hi|exact Hne]].
    destruct l as [|[[q' c'] e'] l]; [apply (Hend [((x, off), e)]); [auto|intros c1 e1 Hi; apply elem_of_list_singleton in Hi; congruence]|].
    destruct (Z.eqb_spec q' x) as [->|Hq']; cbn [negb].
    + apply (Hnext [((x, off), e)] c' e' l); [reflexivity|intros c1 e1 Hi; apply elem_of_list_singleton in Hi; congruence|].
      intros ->. destruct (from_children d x b [] x off e (((x, off), e') :: l) H Hx Hb El off e' ltac:(left)) as [_ Hlt]. exact (blt_irrefl _ Hlt).
    + apply (Hend [((x, off), e)]); [|intros c1 e1 Hi; apply elem_of_list_singleton in Hi; congruence]. intros c1 e1 Hi. apply elem_of_cons in Hi as [->|Hi]; [left|]. apply elem_of_cons in Hi as [Hi|Hi]; [congruence|].
      destruct (from_children d x b [((x, off), e)] q' c' e' l H Hx Hb El c1 e1 Hi) as [? _]. contradiction.
  - apply (Hend []); [|intros ? ? Hi; inversion Hi]. intros c1 e1 Hi. apply elem_of_cons in Hi as [Hi|Hi]; [congruence|]. destruct (from_children d x b [] q c e l H Hx Hb El c1 e1 Hi) as [? _]. contradiction.
Qed.

(** ** a scan lists what lies beyond the offset *)
Definition inos (l : list dent) : list Z := map (fun e => e.1.1) l.
Lemma inl_has d x p c n : Inv d -> parent_of d x = Ok p -> p <> 0 -> u64 x -> has_inode d x -> inl d x p c n -> has_inode d c /\ 1 <= c /\ u64 c.
Proof.
  intros H Hp Hp0 Hx Hh Hin. assert (Hhi : forall y, has_inode d y -> 1 <= y /\ u64 y) by (intros y Hy; apply has_inode_iff in Hy as [i Hi]; exact (inode_range _ _ _ H Hi)).
  assert (Hc : has_inode d c).
  { destruct Hin as [[-> _]|[(Hpx & -> & _)|Hin]]; [assumption| |].
    - unfold parent_of in Hp. destruct (Z.eqb_spec x ROOT_INO) as [->|Hne]; [injection Hp as <-; contradiction|]. destruct (d_inodes d !! x) as [i|] eqn:Ei; [|discriminate]. injection Hp as <-.
      destruct (inv_parent _ H _ _ Ei Hp0) as [e He]. destruct (treei_facts _ _ _ _ H He) as (_ & _ & (j & Hj & _) & _). apply has_inode_iff. eauto.
    - apply elem_dir_entries in Hin as (e & He & _). apply (treei_facts _ _ _ _ H He). }
  split; [exact Hc|]. apply Hhi. exact Hc.
Qed.
Lemma inl_fun d x p c n n' : Inv d -> parent_of d x = Ok p -> inl d x p c n -> inl d x p c n' -> n = n'.
Proof.
  intros H Hp H1 H2.
  destruct H1 as [[-> ->]|[(Hpx & -> & ->)|H1]]; destruct H2 as [[H2 ->]|[(Hpx' & H2 & ->)|H2]]; try congruence.
  - destruct (child_facts _ _ _ _ _ H Hp H2). lia.
  - destruct (child_facts _ _ _ _ _ H Hp H2). lia.
  - destruct (child_facts _ _ _ _ _ H Hp H1). lia.
  - destruct (child_facts _ _ _ _ _ H Hp H1). lia.
  - apply elem_dir_entries in H1 as (e1 & E1 & <-). apply elem_dir_entries in H2 as (e2 & E2 & <-). congruence.
Qed.
Lemma scan_rest d x p off l e : Inv d -> u64 x -> has_inode d x -> parent_of d x = Ok p -> p <> 0 -> scan d x off l e -> u64 off ->
  e = 0 /\ StronglySorted (beyond x p) (inos l) /\ (forall c n a, (c, n, a) ∈ l -> inl d x p c n /\ beyond x p off c /\ getattr d c = Ok a) /\
  (forall c n, inl d x p c n -> beyond x p off c -> c ∈ inos l).
Proof.
  intros H Hx Hh Hp Hp0. induction 1 as [cur e Hr|cur c n e Hr Hg|cur c n a l e Hr Hg Hs IH]; intros Hu; pose proof (readdir_least d x p cur H Hx Hu Hp Hp0) as Hl; rewrite Hr in Hl.
  - destruct Hl as [-> Hno]. split; [reflexivity|]. split; [constructor|]. split; [intros c n a Hi; inversion Hi|]. intros c n Hi Hb. destruct (Hno _ _ Hi Hb).
  - exfalso. destruct Hl as (Hi & _). destruct (inl_has _ _ _ _ _ H Hp Hp0 Hx Hh Hi) as ([a Ha] & _). congruence.
  - destruct Hl as (Hi & Hb & Hleast). destruct (inl_has _ _ _ _ _ H Hp Hp0 Hx Hh Hi) as (_ & Hc1 & Huc). destruct (IH Huc) as (-> & Hsorted & Hall & Hcov). split; [reflexivity|]. cbn [inos map fst].
    split; [|split].
    + constructor; [exact Hsorted|]. rewrite Forall_forall. intros y Hy. unfold inos in Hy. apply elem_of_list_fmap in Hy as ([[y' n'] a'] & -> & Hy). apply (Hall _ _ _ Hy).
    + intros c' n' a' Hin. apply elem_of_cons in Hin as [E|Hin]; [injection E as -> -> ->; auto|]. destruct (Hall _ _ _ Hin) as (H1 & H2 & H3). split; [exact H1|]. split; [|exact H3]. apply (beyond_trans _ _ _ c); [lia|assumption..].
    + intros c' n' Hi' Hb'. destruct (Hleast _ _ Hi' Hb') as [->|Hb2]; [left|]. right. eapply Hcov; eassumption.
Qed.

(** ** the parent of an inode never changes while it is linked *)
Definition keeps (d d' : db) : Prop := forall p n c a, kn d' p n c a -> (exists a0, kn d p n c a0) \/ d_inodes d !! c = None.
Lemma keeps_refl d : keeps d d.
Proof. intros p n c a H. left. eauto. Qed.
Definition keeps_from (d : db) (t : tx) : Prop := next_le d (t_db t) /\ keeps d (t_db t).
Lemma keeps_emplace d t p' n' a' x t1 : Inv d -> TInv t -> is_dir (t_db t) p' -> room (t_db t) -> emplace t p' n' a' = Done (x, t1) -> keeps_from d t -> keeps_from d t1.
Proof.
  intros Hd HT Hdir Hroom E [Hnx Hk]. split.
  - assert (Hn1 : next_le (t_db t) (t_db t1)); [|revert Hnx Hn1; unfold next_le; intros (k & k' & E1 & E2 & L1) (k1 & k2 & E3 & E4 & L2); exists k, k2; split; [assumption|]; split; [assumption|]; assert (k1 = k') by congruence; lia].
    assert (Es : exists r, step t (OEmplace p' n' a') = Done (r, t1)) by (cbn [step]; rewrite E; eexists; reflexivity). destruct Es as [r Es]. destruct (step_fr t (OEmplace p' n' a') r t1 HT (conj Hdir Hroom) Es) as (_ & (k & k' & K1 & K2 & K3 & _) & _). exists k, k'. auto.
  - intros p n c a H1. destruct (emplace_kn_rev _ _ _ _ _ _ _ _ _ _ HT Hdir Hroom E H1) as [[_ H2]|(-> & -> & -> & ->)]; [exact (Hk _ _ _ _ H2)|].
    destruct (emplace_spec t p' n' a' HT Hdir Hroom) as [(err & _ & E')|[(_ & e' & i' & He' & Hi' & Hty & E' & _)|(_ & _ & kk & R & Hkk & Hfresh & _ & _ & E' & _)]]; rewrite E' in E; [discriminate|..].
    + injection E as Ec _. apply (Hk p' n' c (i_attr i')). exists e', i'. rewrite <- Ec. auto.
    + injection E as Ec _. subst kk. right. destruct (d_inodes d !! c) as [i|] eqn:Ei; [|reflexivity]. exfalso. destruct (inv_next _ Hd) as (k0 & Hk0 & _ & Hlt). specialize (Hlt _ _ Ei). destruct Hnx as (k1 & k2 & E1 & E2 & L). assert (k1 = k0) by congruence. assert (k2 = c) by congruence. lia.
Qed.
Lemma keeps_weaken d t1 t2 : keeps_from d t1 -> next_le (t_db t1) (t_db t2) -> (forall p n c a, kn (t_db t2) p n c a -> exists a0, kn (t_db t1) p n c a0) -> keeps_from d t2.
Proof. intros [H1 H2] Hn Hk. split; [eapply next_le_trans; eassumption|]. intros p n c a H. destruct (Hk _ _ _ _ H) as [a0 H']. exact (H2 _ _ _ _ H'). Qed.
Lemma step_next t o r t' : TInv t -> legal t o -> step t o = Done (r, t') -> next_le (t_db t) (t_db t').
Proof. intros HT Hl E. destruct (step_fr t o r t' HT Hl E) as (_ & (k & k' & K1 & K2 & K3 & _) & _). exists k, k'. auto. Qed.
Lemma finish_kn_rev t res t' p n c a : TInv t -> finish_dir_rewrite t = Done (res, t') -> kn (t_db t') p n c a -> kn (t_db t) p n c a.
Proof.
  intros HT E. unfold finish_dir_rewrite in E. destruct (t_rw t) as [m|]; injection E as _ <-; [|auto]. cbn [t_db]. rewrite fold_orphan_kn by apply (tinv_db _ HT). tauto.
Qed.
Lemma keeps_step W s k q s' o : FInv W s k -> AInv s -> klegal k s q -> enough W s q -> fstep s q = Done (s', o) -> next_le (s_db s) (s_db s') /\ keeps (s_db s) (s_db s').
Proof.
  intros HF HA Hl HW E. unfold enough in HW. assert (H63 : 2 ^ 63 < 2 ^ 64) by lia. pose proof (fi_dr _ _ _ HF) as Hdr. pose proof (dr_inv _ _ _ Hdr) as Hi.
  assert (HW0 : 0 <= weight s q). { destruct q; cbn [weight]; try lia. destruct (path _ _) as [[?|?]| | |]; try lia. destruct (b_opendir _ _) as [[? ?]|]; lia. }
  assert (Hsame : next_le (s_db s) (s_db s) /\ keeps (s_db s) (s_db s)) by (split; [apply next_le_refl; assumption|apply keeps_refl]).
  assert (HT : TInv (begun s)) by (eapply way_tinv; apply way_begin; exact Hdr). assert (H0 : keeps_from (s_db s) (begun s)) by exact Hsame.
  destruct q as [b p' n'|x m|fs|x|b x|b x|x size off|x|id x|id size off|tag|root]; cbn [fstep klegal] in *.
  - destruct Hl as [Hk Hb]. cbn [weight] in HW. destruct (h_lookup_total W s k b p' n' HF Hk ltac:(lia)) as (s2 & l & E2 & Hc). rewrite E2 in E. injection E as <- <-. pose proof (kdir_is_dir _ _ _ _ HF Hk) as Hdir.
    assert (Hroom : room (t_db (begun s))) by (eapply way_room; [apply way_begin; exact Hdr|lia]).
    destruct Hc as [Hw|comps st' e Hw El' Hcn|comps st' c t1 t2 Hw El' Ee Elk|comps c a t2 Hw El' Hl Hg Elk|comps Hw El' Hl Hs|comps Hw El' Hl Hs|comps e Hw El' Hl He|comps e x t1 Hw El' He Eu]; try exact Hsame.
    + assert (HW1 : way W (begun s) (W + 1) t1) by (eapply way_emplace; [apply way_begin; exact Hdr|exact Hdir|lia|exact Ee]).
      destruct (lock_refcount t1 c t2 (W + 1) (wy_dr _ _ _ _ HW1) ltac:(lia) Elk) as [Ed _]. cbn [s_db after set_dbr]. rewrite Ed. eapply keeps_emplace; eassumption.
    + destruct (lock_refcount (begun s) c t2 W Hdr ltac:(lia) Elk) as [Ed _]. cbn [s_db after set_dbr]. rewrite Ed. exact Hsame.
    + cbn [s_db after set_dbr]. eapply keeps_weaken; [exact H0| |].
      * assert (Es : exists r, step (begun s) (OUnlinkName p' n') = Done (r, t1)) by (cbn [step]; rewrite Eu; eexists; reflexivity). destruct Es as [r Es]. exact (step_next (begun s) (OUnlinkName p' n') _ _ HT I Es).
      * intros p n c a Hkn. exists a. apply (unlink_name_kn _ _ _ _ _ _ _ _ _ HT Eu). exact Hkn.
  - destruct (h_forget_spec W s k x m HF ltac:(lia) Hl) as (t & E2 & _ & Hd & _). rewrite E2 in E. injection E as <- <-. cbn [s_db after set_dbr]. rewrite Hd. exact Hsame.
  - destruct Hl as [Hl1 Hl2]. destruct (h_forget_multi_spec W s k fs HF ltac:(lia) Hl1 Hl2) as (t & E2 & _ & Hd & _). rewrite E2 in E. injection E as <- <-. cbn [s_db after set_dbr]. rewrite Hd. exact Hsame.
  - unfold h_getattr in E. destruct (getattr (s_db s) x); injection E as <- <-; exact Hsame.
  - destruct (h_readlink_total W s k b x HF) as (s2 & l & E2 & Hc). rewrite E2 in E. injection E as <- <-. destruct Hc as [Hw|comps link r t1 Hw El E1|comps link Hw El Hr|comps e Hw El Hr|comps e r t1 Hw El He E1]; try exact Hsame; cbn [s_db after set_dbr]; (eapply keeps_weaken; [exact H0| |]).
    + assert (Es : exists r, step (begun s) (OWritelink x link) = Done (r, t1)) by (cbn [step]; rewrite E1; eexists; reflexivity). destruct Es as [r' Es]. exact (step_next (begun s) (OWritelink x link) _ _ HT I Es).
    + intros p n c a Hkn. destruct (proj2 (writelink_kn _ _ _ _ _ p n c a E1) Hkn) as [?|(_ & a0 & Hk0 & _)]; eauto.
    + assert (Es : exists r, step (begun s) (OUnlinkIno x) = Done (r, t1)) by (cbn [step]; rewrite E1; eexists; reflexivity). destruct Es as [r' Es]. exact (step_next (begun s) (OUnlinkIno x) _ _ HT I Es).
    + intros p n c a Hkn. exists a. apply (unlink_ino_kn _ _ _ _ _ _ _ _ HT E1). exact Hkn.
  - destruct Hl as [Hk Hb]. destruct (h_opendir_total W s k b x HF Hk ltac:(lia)) as (s2 & l & E2 & Hc & _). rewrite E2 in E. injection E as <- <-. pose proof (kdir_is_dir _ _ _ _ HF Hk) as Hdir.
    destruct Hc as [Hw|comps e Hw El He|comps Hw El|comps names e0 t1 t2 m t3 r t4 Hw El E1 (W1 & t0 & W' & HS1 & HW1 & HWl) E2' HS2 Hm Hm' E3 E4]; try exact Hsame. cbn [s_db after set_dbr].
    assert (Hd1 : t_db t1 = s_db s). { unfold start_dir_rewrite in E1. cbn in E1. destruct (from_key _ _ _); injection E1; intros; subst; reflexivity. }
    assert (HS3 : session x t3 m) by (eapply ses_flags; eassumption).
    pose proof (s_inv _ _ _ (session_inv _ _ _ HS2)) as HT2. pose proof (s_inv _ _ _ (session_inv _ _ _ HS3)) as HT3.
    assert (HK2 : keeps_from (s_db s) t2).
    { eapply (sync_entries_inv (keeps_from (s_db s)) W1 t0 b x (backend_path (spell comps)) names); [|exact HS1|exact HW1|exact HWl|exact E2'|unfold keeps_from; rewrite Hd1; exact Hsame].
      intros t n a y t' A1 A2 A3 A4. eapply keeps_emplace; eassumption. }
    eapply keeps_weaken; [eapply keeps_weaken; [exact HK2| |]| |].
    + exact (step_next t2 (OFlags x [SYNCED] []) _ _ HT2 I E3).
    + intros p n c a Hkn. exists a. apply (update_flags_kn _ _ _ _ _ _ p n c a E3). exact Hkn.
    + exact (step_next t3 OFinishRewrite _ _ HT3 I E4).
    + intros p n c a Hkn. exists a. eapply finish_kn_rev; eassumption.
  - destruct (h_readdir_total s x size off Hi) as (l & E2 & _). rewrite E2 in E. injection E as <- <-. exact Hsame.
  - injection E as <- <-. exact Hsame.
  - injection E as <- <-. exact Hsame.
  - destruct (s_plus s !! id) as [[snap dir]|] eqn:Hid; [|contradiction]. destruct (h_plus_total W s k id size off snap dir HF Hid ltac:(lia)) as (l & e & pre & post & rep & _ & _ & E2 & _). rewrite E2 in E. injection E as <- <-. exact Hsame.
  - injection E as <- <-. exact Hsame.
  - destruct (open_cache root (s_db s)) as [[d r]| | |] eqn:Eo; try discriminate. cbn [obind] in E. injection E as <- <-. cbn [s_db].
    destruct (open_cache_spec root (s_db s) ltac:(rewrite init_db_id by assumption; assumption)) as (R & HR & E' & _). rewrite E' in Eo. injection Eo as <- <-. rewrite init_db_id by assumption.
    split; [apply Hsame|]. intros p n c a Hkn. left. exists a. eapply cleaned_kn_rev. exact Hkn.
Qed.

(** ** one reply *)
Definition ktype (a : attrs) : Z := w32 (Z.shiftr (ftype (a_mode a)) 12).
Record reply_facts (d : db) (x p size off : Z) (b : bytes) : Prop := {
  rf_size : Z.of_nat (length b) <= Z.max 0 size;
  rf_sorted : StronglySorted (beyond x p) (map ke_ino (kernel_reads b));
  rf_entry : forall y, y ∈ kernel_reads b -> ke_off y = ke_ino y /\ u64 (ke_ino y) /\ ke_ino y <> 0 /\ beyond x p off (ke_ino y) /\ inl d x p (ke_ino y) (ke_name y) /\
    exists a, getattr d (ke_ino y) = Ok a /\ ke_type y = ktype a;
  rf_cover : forall c n, inl d x p c n -> beyond x p off c -> c ∈ map ke_ino (kernel_reads b) \/ (exists y, last (kernel_reads b) = Some y /\ beyond x p (ke_ino y) c) \/
    kernel_reads b = [] /\ exists c0 n0, inl d x p c0 n0 /\ beyond x p off c0 /\ size <= dirent_size n0;
  rf_nil : kernel_reads b = [] -> b = [];
  rf_synced : b = [] -> 0 < size -> (forall c n, inl d x p c n -> ~ beyond x p off c) -> test_flag d x SYNCED = Ok true }.
Lemma reply_scan d x p size off l pre post : Inv d -> DA d -> small d -> u64 x -> u64 off -> has_inode d x -> parent_of d x = Ok p -> p <> 0 ->
  scan d x off l 0 -> fits dirent_size size (map to_bent l) pre post -> (post = [] -> pre = [] -> 0 < size -> test_flag d x SYNCED = Ok true) ->
  reply_facts d x p size off (concat (map rec_dirent pre)).
Proof.
  intros H HA Hsm Hx Hoff Hh Hp Hp0 Hs Hf Hsy. destruct (scan_rest d x p off l 0 H Hx Hh Hp Hp0 Hs Hoff) as (_ & Hsorted & Hall & Hcov).
  pose proof (scan_bents _ _ _ _ _ H HA Hsm Hs) as Hb. assert (Hbp : Forall bent_ok pre) by (eapply fits_sub; eassumption). pose proof (reads_dirents pre Hbp) as Hreads.
  destruct Hf as (El & Hf1 & Hf2).
  assert (Hpl : exists l1 l2, l = l1 ++ l2 /\ pre = map to_bent l1 /\ post = map to_bent l2). { apply map_eq_app in El as (l1 & l2 & -> & <- & <-). eauto. }
  destruct Hpl as (l1 & l2 & -> & -> & ->).
  assert (Hoffs : map ke_ino (map want (map to_bent l1)) = inos l1). { clear. unfold inos. induction l1 as [|[[c n] a] l1 IH]; [reflexivity|]. cbn. f_equal. exact IH. }
  assert (Hs1 : StronglySorted (beyond x p) (inos l1) /\ forall c c', c ∈ inos l1 -> c' ∈ inos l2 -> beyond x p c c').
  { unfold inos in Hsorted |- *. rewrite map_app in Hsorted. exact (sorted_split _ _ _ Hsorted). }
  destruct Hs1 as [Hs1 Hs2]. split.
  - rewrite (concat_total dirent_size) by exact rec_dirent_length. destruct (Z_lt_le_dec 0 size) as [H0|H0]; [destruct (Hf1 H0); lia|]. rewrite (Hf2 H0). cbn. lia.
  - rewrite Hreads, Hoffs. exact Hs1.
  - intros y Hy. rewrite Hreads in Hy. apply elem_of_list_fmap in Hy as (e & -> & He). pose proof He as He'. apply elem_of_list_fmap in He as ([[c n] a] & -> & He). destruct (Hall c n a) as (H1 & H2 & H3); [set_solver|].
    destruct (inl_has _ _ _ _ _ H Hp Hp0 Hx Hh H1) as (_ & Hc1 & Hcu). cbn [to_bent want ke_ino ke_off ke_name ke_type be_ino be_off be_name be_attr]. unfold w64. rewrite Z.mod_small by exact Hcu. split; [reflexivity|]. split; [exact Hcu|]. split; [lia|]. split; [exact H2|]. split; [exact H1|]. eauto.
  - intros c n Hi Hb'. rewrite Hreads, Hoffs. pose proof (Hcov c n Hi Hb') as Hin. unfold inos in Hin. rewrite map_app in Hin. apply elem_of_app in Hin as [Hin|Hin]; [left; exact Hin|].
    right. destruct (last l1) as [[[cl nl] al]|] eqn:Elast.
    + left. exists (want (to_bent (cl, nl, al))). apply last_Some in Elast as [l1' ->]. split; [rewrite !map_app; apply last_snoc|]. cbn. apply Hs2; [|exact Hin]. unfold inos. rewrite map_app. apply elem_of_app. right. left.
    + right. apply last_None in Elast as ->. cbn [map]. split; [reflexivity|]. destruct l2 as [|[[c0 n0] a0] l2]; [inversion Hin|]. exists c0, n0. destruct (Hall c0 n0 a0) as (H1 & H2 & _); [left|]. split; [exact H1|]. split; [exact H2|].
      destruct (Z_lt_le_dec 0 size) as [H0|H0]; [|pose proof (dirent_size_pos n0); lia]. destruct (Hf1 H0) as [_ H3]. cbn in H3. lia.
  - intros Hk. rewrite Hreads in Hk. apply map_nil_inv, map_nil_inv in Hk as ->. reflexivity.
  - intros Hn H0 Hno. assert (l1 = []) as ->. { destruct l1 as [|e l1]; [reflexivity|]. exfalso. cbn [map concat] in Hn. apply app_eq_nil in Hn as [Hn _]. apply (f_equal (fun v => Z.of_nat (length v))) in Hn. rewrite rec_dirent_length in Hn. cbn in Hn. pose proof (dirent_size_pos (be_name (to_bent e))). lia. }
    apply Hsy; [|reflexivity|exact H0]. destruct l2 as [|[[c0 n0] a0] l2]; [reflexivity|]. exfalso. destruct (Hall c0 n0 a0) as (H1 & H2 & _); [left|]. exact (Hno _ _ H1 H2).
Qed.
Lemma reply_ok W s k h x size off b p : hist W s k h -> enough W s (QReaddir x size off) -> has_inode (s_db s) x -> parent_of (s_db s) x = Ok p -> p <> 0 ->
  readdir_case s x size off [RBuf b] -> reply_facts (s_db s) x p size (w64 off) b.
Proof.
  intros H Hen Hh Hp Hp0 Hc. destruct (hist_inv _ _ _ _ H) as (HF & HA & HW). pose proof (fi_dr _ _ _ HF) as Hdr. pose proof (dr_inv _ _ _ Hdr) as Hi.
  assert (Hsm : small (s_db s)). { destruct (dr_next _ _ _ Hdr) as (n & Hn & Hle). exists n. split; [exact Hn|]. unfold enough in Hen. cbn [weight] in Hen. lia. }
  assert (Hx : u64 x) by (apply has_inode_iff in Hh as [i Hi']; apply (inode_range _ _ _ Hi Hi')).
  assert (Ho : u64 (w64 off)) by (unfold u64, w64; apply Z.mod_pos_bound; lia).
  assert (Hno : ~ is_orphan (s_db s) x) by (intros [_ Ho']; congruence).
  inversion Hc as [l e pre post Hs Hf Hpost E1|l pre H0 Hs Hf Hsy E1| |]; subst.
  - destruct (scan_total (s_db s) x (w64 off) Hi) as (l' & e' & Hs' & _ & _ & He). destruct (scan_fun _ _ _ _ _ Hs _ _ Hs') as [<- <-].
    assert (e = 0) as ->. { destruct (Z.eq_dec e 0) as [|Hne]; [assumption|]. destruct (He Hne) as [[_ ?]|?]; contradiction. }
    eapply reply_scan; try eassumption; [apply HA|]. intros -> _ H0. destruct (Hpost H0 eq_refl).
  - eapply reply_scan; try eassumption; [apply HA|]. auto.
Qed.

(** ** histories cut in two *)
Inductive goes : Z -> fstate -> kst -> list event -> Z -> fstate -> kst -> Prop :=
| goes_nil W s k : goes W s k [] W s k
| goes_cons W s k q s' o sent es W2 s2 k2 : klegal k s q -> enough W s q -> fstep s q = Done (s', o) -> sent_of o = (sent, false) ->
    goes (W + weight s q) s' (kstep k q sent) es W2 s2 k2 -> goes W s k (Ev s q sent :: es) W2 s2 k2.
Lemma goes_snoc W s k es W1 s1 k1 q s' o sent : goes W s k es W1 s1 k1 -> klegal k1 s1 q -> enough W1 s1 q -> fstep s1 q = Done (s', o) -> sent_of o = (sent, false) ->
  goes W s k (es ++ [Ev s1 q sent]) (W1 + weight s1 q) s' (kstep k1 q sent).
Proof.
  induction 1 as [W s k|W s k q0 s0' o0 sent0 es W2 s2 k2 A1 A2 A3 A4 A5 IH]; intros; [|cbn [app]; econstructor; eauto]. cbn [app]. econstructor; try eassumption. constructor.
Qed.
Lemma hist_split h hs : forall W2 s2 k2, hist W2 s2 k2 (h ++ hs) -> exists W s k, hist W s k h /\ goes W s k hs W2 s2 k2.
Proof.
  induction hs as [|e hs IH] using rev_ind; intros W2 s2 k2 H; [rewrite app_nil_r in H; exists W2, s2, k2; split; [exact H|constructor]|].
  rewrite app_assoc in H. apply hist_last in H as (W0 & k0' & s' & o & sent & H & A1 & A2 & A3 & A4 & A5 & -> & -> & ->). destruct (IH _ _ _ H) as (W & s & k & H1 & H2). exists W, s, k. split; [exact H1|].
  rewrite A5 at 1. eapply goes_snoc; eassumption.
Qed.

(** ** a client that reads a directory from the start to the end *)
(** [stream x off hs l]: among the events [hs], in this order, are requests that read [x] on from
    [off], each continuing at the offset of the last entry it received, until an empty reply;
    [l] is what they received.  Anything may happen in between. *)
Inductive stream (x : Z) : Z -> list event -> list kent -> Prop :=
| st_other off e hs l : stream x off hs l -> stream x off (e :: hs) l
| st_some off s size b y ys hs l : kernel_reads b = ys ++ [y] -> stream x (ke_off y) hs l ->
    stream x off (Ev s (QReaddir x size off) [RBuf b] :: hs) (ys ++ [y] ++ l)
| st_end off s size hs : stream x off (Ev s (QReaddir x size off) [RBuf []] :: hs) [].

(** [x] has the parent [p] whenever it is linked *)
Definition under (d : db) (x p : Z) : Prop :=
  x = 1 /\ p = 1 \/ x <> 1 /\ (exists k, d_next d = Some k /\ x < k) /\ forall p' n a, kn d p' n x a -> p' = p.
Lemma asked_parent s x pp : Inv (s_db s) -> asked s x = Some pp -> has_inode (s_db s) x /\ exists p, parent_of (s_db s) x = Ok p /\ p <> 0 /\ (x = 1 /\ p = 1 \/ x <> 1 /\ exists n a, kn (s_db s) p n x a).
Proof.
  intros H Ha. destruct (asked_some _ _ _ H Ha) as (comps & Hw & _). destruct comps as [|n comps] using rev_ind.
  - cbn in Hw. subst x. destruct (inv_root _ H) as (i & Hi & _). split; [apply has_inode_iff; eauto|]. exists 1. split; [reflexivity|]. split; [lia|]. auto.
  - clear IHcomps. apply walk_app in Hw as (z & Hw & (y & Hl & Hy)). cbn in Hy. subst y. assert (Hz : u64 z) by (eapply walk_u64; [exact H| |exact Hw]; unfold u64; lia).
    apply lookup_treei in Hl as (e & He & Hn); [|assumption..]. destruct (treei_facts _ _ _ _ H He) as (Hp & Hh & _ & Hx1 & Hz0 & _). split; [exact Hh|]. exists z. split; [exact Hp|]. split; [exact Hz0|]. right. split; [exact Hx1|].
    destruct Hh as [a Hga]. exists n, a. apply knows_kn; [assumption..|]. split; [apply lookup_treei; eauto|exact Hga].
Qed.
Lemma under_parent s x p pp : Inv (s_db s) -> under (s_db s) x p -> asked s x = Some pp -> parent_of (s_db s) x = Ok p /\ p <> 0 /\ has_inode (s_db s) x.
Proof.
  intros H Hu Ha. destruct (asked_parent _ _ _ H Ha) as (Hh & p' & Hp & Hp0 & [[-> ->]|(Hx & n & a & Hk)]).
  - destruct Hu as [[_ ->]|[? _]]; [auto|contradiction].
  - destruct Hu as [[? _]|(_ & _ & Hu)]; [contradiction|]. rewrite (Hu _ _ _ Hk) in *. auto.
Qed.
Lemma under_start s x p pp : Inv (s_db s) -> asked s x = Some pp -> parent_of (s_db s) x = Ok p -> under (s_db s) x p.
Proof.
  intros H Ha Hp. destruct (asked_parent _ _ _ H Ha) as (Hh & p' & Hp' & Hp0 & [[Hx Hp1]|(Hx & n & a & Hk)]); assert (p' = p) by congruence; subst p'; [left; auto|]. right. split; [exact Hx|]. split.
  - apply has_inode_iff in Hh as [i Hi]. destruct (inv_next _ H) as (k & Hk' & _ & Hlt). exists k. split; [exact Hk'|]. apply (Hlt _ _ Hi).
  - intros p' n' a' Hk'. destruct (kn_inj _ _ _ _ _ _ _ _ H Hk Hk'). congruence.
Qed.
Lemma under_step W s k q s' o x p : FInv W s k -> AInv s -> klegal k s q -> enough W s q -> fstep s q = Done (s', o) -> under (s_db s) x p -> Inv (s_db s') -> under (s_db s') x p.
Proof.
  intros HF HA Hl Hen E [Hr|(Hx & (kk & Hk & Hlt) & Hu)] Hi'; [left; exact Hr|]. destruct (keeps_step W s k q s' o HF HA Hl Hen E) as [(k1 & k2 & E1 & E2 & Hle) Hkeep]. assert (k1 = kk) by congruence. subst k1. right. split; [exact Hx|]. split; [exists k2; split; [exact E2|lia]|].
  intros p' n a Hkn. destruct (Hkeep _ _ _ _ Hkn) as [[a0 H0]|Hnone]; [exact (Hu _ _ _ H0)|]. exfalso. pose proof (dr_inv _ _ _ (fi_dr _ _ _ HF)) as Hi.
  assert (Hlost : lost (s_db s) x) by (split; [exact Hnone|eauto]). assert (Hxu : u64 x) by (destruct (inv_next _ Hi) as (k0 & Hk0 & Hb & _); assert (k0 = kk) by congruence; destruct (kn_treei _ _ _ _ _ Hi' Hkn) as (e & i & _ & _ & Hix & _); apply (inode_range _ _ _ Hi' Hix)).
  pose proof (kn_valid _ _ _ _ _ Hi' Hkn) as Hvn. pose proof (ks_lost _ _ _ _ _ (news_step W s k q s' o x n HF HA Hl Hen E Hvn Hxu) Hlost) as [Hn _]. destruct Hkn as (e & i & _ & _ & Hix & _). congruence.
Qed.

(** ** the whole stream *)
Lemma sorted_join {A} (R : A -> A -> Prop) u v : StronglySorted R u -> StronglySorted R v -> (forall c c', c ∈ u -> c' ∈ v -> R c c') -> StronglySorted R (u ++ v).
Proof.
  induction u as [|c u IH]; cbn; intros Hu Hv Huv; [exact Hv|]. inversion Hu; subst. constructor; [apply IH; [assumption..|]; intros c1 c2 Hc1 Hc2; apply Huv; [right; exact Hc1|exact Hc2]|].
  apply Forall_app. split; [assumption|]. rewrite Forall_forall. intros c' Hc'. apply Huv; [left|exact Hc'].
Qed.
(** The buffer is larger than the record of every entry: "." and ".." take 32 bytes, a name takes
    24 bytes plus its length, rounded up to a multiple of 8. *)
Definition roomy (d : db) (x size : Z) : Prop := 32 < size /\ forall c n, lookup d x n = Ok c -> dirent_size n < size.
Lemma dirent_size_max n : Z.of_nat (length n) <= 503 -> dirent_size n <= 528.
Proof. intros H. unfold dirent_size, align8. assert ((24 + Z.of_nat (length n) + 7) / 8 <= 66); [|lia]. assert ((24 + Z.of_nat (length n) + 7) / 8 < 67); [|lia]. apply Z.div_lt_upper_bound; lia. Qed.
Lemma roomy_all d x size : Inv d -> u64 x -> 528 < size -> roomy d x size.
Proof.
  intros H Hx Hs. split; [lia|]. intros c n Hl. apply lookup_treei in Hl as (e & He & <-); [|assumption..]. destruct (inv_treei _ H _ _ _ He) as (_ & _ & _ & _ & _ & Hn).
  destruct (inv_treen _ H _ _ _ Hn) as (_ & Hv & _). pose proof (dirent_size_max (de_name e) (valid_name_len _ Hv)). lia.
Qed.
Lemma roomy_inl d x p size c n : Inv d -> u64 x -> roomy d x size -> inl d x p c n -> dirent_size n < size.
Proof.
  intros H Hx [H1 H2] [[_ ->]|[(_ & _ & ->)|Hi]]; [exact H1|exact H1|]. apply (H2 c). apply lookup_treei; [assumption..|]. apply elem_dir_entries. exact Hi.
Qed.
Lemma stream_ok x p off hs l : stream x off hs l -> u64 off -> forall W s k h W2 s2 k2, hist W s k h -> goes W s k hs W2 s2 k2 -> under (s_db s) x p ->
  (forall e, e ∈ hs -> forall size o, ev_q e = QReaddir x size o -> asked (ev_s e) x <> None /\ roomy (s_db (ev_s e)) x size) ->
  StronglySorted (beyond x p) (map ke_ino l) /\
  (forall y, y ∈ l -> ke_ino y <> 0 /\ beyond x p off (ke_ino y) /\ exists e, e ∈ hs /\ asked (ev_s e) x <> None /\ Inv (s_db (ev_s e)) /\ parent_of (s_db (ev_s e)) x = Ok p /\ inl (s_db (ev_s e)) x p (ke_ino y) (ke_name y) /\ exists a, getattr (s_db (ev_s e)) (ke_ino y) = Ok a /\ ke_type y = ktype a) /\
  (forall c n, (forall e, e ∈ hs -> inl (s_db (ev_s e)) x p c n) -> beyond x p off c -> c ∈ map ke_ino l) /\
  (exists e size o, e ∈ hs /\ e = Ev (ev_s e) (QReaddir x size o) [RBuf []] /\ test_flag (s_db (ev_s e)) x SYNCED = Ok true).
Proof.
  induction 1 as [off e hs l Hst IH|off s0 size b y ys hs l Hk Hst IH|off s0 size hs]; intros Hoff W s k h W2 s2 k2 H Hg Hu Hall;
    inversion Hg as [|W' s' k' q s1 o sent es W2' s2' k2' Hl Hen E Ea Hg']; subst; assert (Hev := Hall _ (elem_of_list_here _ _)); cbn [ev_s ev_q] in Hev.
  - (* another request *)
    assert (H1 : hist (W + weight s q) s1 (kstep k q sent) (h ++ [Ev s q sent])) by (econstructor; eassumption).
    destruct (hist_inv _ _ _ _ H) as (HF & HA & HW). destruct (hist_inv _ _ _ _ H1) as (HF1 & _). pose proof (dr_inv _ _ _ (fi_dr _ _ _ HF1)) as Hi1.
    destruct (IH Hoff _ _ _ _ _ _ _ H1 Hg' (under_step _ _ _ _ _ _ _ _ HF HA Hl Hen E Hu Hi1)) as (A1 & A2 & A3 & A4); [intros e He; apply Hall; right; exact He|].
    split; [exact A1|]. split; [|split].
    + intros y Hy. destruct (A2 y Hy) as (B0 & B1 & e & B2 & B3). split; [exact B0|]. split; [exact B1|]. exists e. split; [right; exact B2|exact B3].
    + intros c n Hc. apply (A3 c n). intros e He. apply Hc. right. exact He.
    + destruct A4 as (e & sz & o' & B1 & B2 & B3). exists e, sz, o'. split; [right; exact B1|auto].
  - rename s0 into s. destruct (Hev _ _ eq_refl) as [Has Hroom]. clear Hev. destruct (asked s x) as [pp|] eqn:Ep; [|contradiction].
    destruct (hist_inv _ _ _ _ H) as (HF & HA & HW). pose proof (dr_inv _ _ _ (fi_dr _ _ _ HF)) as Hi. destruct (under_parent s x p pp Hi Hu Ep) as (Hp & Hp0 & Hh).
    assert (H1 : hist (W + weight s (QReaddir x size off)) s1 (kstep k (QReaddir x size off) [RBuf b]) (h ++ [Ev s (QReaddir x size off) [RBuf b]])) by (econstructor; eassumption).
    destruct (hist_inv _ _ _ _ H1) as (HF1 & _). pose proof (dr_inv _ _ _ (fi_dr _ _ _ HF1)) as Hi1.
    assert (Hu1 : under (s_db s1) x p) by exact (under_step _ _ _ _ _ _ _ _ HF HA Hl Hen E Hu Hi1).
    cbn [fstep] in E. destruct (h_readdir_total s x size off Hi) as (r & E2 & Hc). rewrite E2 in E. injection E as <- <-.
    assert (Hr : r = [RBuf b]). { inversion Hc; subst; cbn [sent_of] in Ea; rewrite ?answer_one, ?answer_two in Ea; try discriminate Ea; injection Ea as Ea; rewrite ?Ea; reflexivity. }
    subst r. pose proof (reply_ok W s k h x size off b p H Hen Hh Hp Hp0 Hc) as HR. replace (w64 off) with off in HR by (symmetry; apply Z.mod_small; exact Hoff).
    assert (Hx : u64 x) by (apply has_inode_iff in Hh as [i Hi']; apply (inode_range _ _ _ Hi Hi')).
    assert (Hy : y ∈ kernel_reads b) by (rewrite Hk; set_solver). destruct (rf_entry _ _ _ _ _ _ HR y Hy) as (Hyo & Hyu & Hy0 & Hyb & _).
    rewrite Hyo in *. destruct (IH Hyu _ _ _ _ _ _ _ H1 Hg' Hu1) as (A1 & A2 & A3 & A4); [intros e He; apply Hall; right; exact He|].
    pose proof (rf_sorted _ _ _ _ _ _ HR) as Hs. rewrite Hk in Hs.
    rewrite app_assoc. split; [|split; [|split]].
    + rewrite map_app. apply sorted_join; [exact Hs|exact A1|]. intros c c' Hc1 Hc2. apply elem_of_list_fmap in Hc2 as (z & -> & Hz). destruct (A2 z Hz) as (_ & Hzb & _).
      rewrite map_app in Hc1, Hs. apply elem_of_app in Hc1 as [Hc1|Hc1]; [|apply elem_of_list_singleton in Hc1 as ->; exact Hzb].
      apply (beyond_trans x p c (ke_ino y)); [exact Hy0| |exact Hzb]. apply (proj2 (sorted_split _ _ _ Hs)); [exact Hc1|cbn; left].
    + intros z Hz. apply elem_of_app in Hz as [Hz|Hz].
      * rewrite <- Hk in Hz. destruct (rf_entry _ _ _ _ _ _ HR z Hz) as (B1 & B2 & B3 & B4 & B5 & B6). split; [exact B3|]. split; [exact B4|]. eexists. split; [left|]. cbn [ev_s]. split; [congruence|]. auto.
      * destruct (A2 z Hz) as (B0 & B1 & e & B2 & B3). split; [exact B0|]. split; [eapply beyond_trans; [exact Hy0|exact Hyb|exact B1]|]. exists e. split; [right; exact B2|exact B3].
    + intros c n Hin Hb. rewrite map_app. apply elem_of_app. pose proof (Hin _ (elem_of_list_here _ _)) as Hc0. cbn [ev_s] in Hc0. destruct (rf_cover _ _ _ _ _ _ HR c n Hc0 Hb) as [B|[(z & B1 & B2)|[B _]]].
      * left. rewrite Hk in B. exact B.
      * right. rewrite Hk, last_snoc in B1. injection B1 as <-. apply (A3 c n); [|exact B2]. intros e He. apply Hin. right. exact He.
      * rewrite Hk in B. destruct ys; discriminate B.
    + destruct A4 as (e & sz & o' & B1 & B2 & B3). exists e, sz, o'. split; [right; exact B1|auto].
  - rename s0 into s. destruct (Hev _ _ eq_refl) as [Has Hroom]. clear Hev. destruct (asked s x) as [pp|] eqn:Ep; [|contradiction].
    destruct (hist_inv _ _ _ _ H) as (HF & HA & HW). pose proof (dr_inv _ _ _ (fi_dr _ _ _ HF)) as Hi. destruct (under_parent s x p pp Hi Hu Ep) as (Hp & Hp0 & Hh).
    cbn [fstep] in E. destruct (h_readdir_total s x size off Hi) as (r & E2 & Hc). rewrite E2 in E. injection E as <- <-.
    assert (Hr : r = [RBuf []]). { inversion Hc; subst; cbn [sent_of] in Ea; rewrite ?answer_one, ?answer_two in Ea; try discriminate Ea; injection Ea as Ea; rewrite ?Ea; reflexivity. }
    subst r. pose proof (reply_ok W s k h x size off [] p H Hen Hh Hp Hp0 Hc) as HR. replace (w64 off) with off in HR by (symmetry; apply Z.mod_small; exact Hoff).
    assert (Hx : u64 x) by (apply has_inode_iff in Hh as [i Hi']; apply (inode_range _ _ _ Hi Hi')).
    assert (Hnone : forall c n, inl (s_db s) x p c n -> ~ beyond x p off c).
    { intros c n Hin Hb. destruct (rf_cover _ _ _ _ _ _ HR c n Hin Hb) as [B|[(z & B1 & B2)|[_ (c0 & n0 & B1 & B2 & B3)]]]; [inversion B|discriminate B1|]. pose proof (roomy_inl _ _ _ _ _ _ Hi Hx Hroom B1). lia. }
    split; [constructor|]. split; [intros y Hy; inversion Hy|]. split.
    + intros c n Hin Hb. exfalso. exact (Hnone c n (Hin _ (elem_of_list_here _ _)) Hb).
    + eexists _, size, off. split; [left|]. split; [reflexivity|]. cbn [ev_s]. apply (rf_synced _ _ _ _ _ _ HR); [reflexivity|destruct Hroom; lia|exact Hnone].
Qed.

(** ** a client alone with the file system *)
(** The client reads [x] from [off] on, once for each buffer size, until the reply is empty or an
    error: what it received, and the last reply. *)
Fixpoint read_all (s : fstate) (x off : Z) (sizes : list Z) : option (list kent * reply) :=
  match sizes with
  | [] => None
  | size :: sizes =>
    match fstep s (QReaddir x size off) with
    | Done (s', Some [RBuf b]) =>
      match last (kernel_reads b) with
      | None => Some ([], RBuf b)
      | Some y => match read_all s' x (ke_off y) sizes with Some (l, r) => Some (kernel_reads b ++ l, r) | None => None end
      end
    | Done (_, Some [r]) => Some ([], r)
    | _ => None
    end
  end.
Lemma scan_after_last d x off l1 : forall l2 c n a e, scan d x off (l1 ++ l2) e -> last l1 = Some (c, n, a) -> scan d x c l2 e.
Proof.
  revert off. induction l1 as [|[[c1 n1] a1] l1 IH]; intros off l2 c n a e Hs Hl; [discriminate|]. cbn [app] in Hs. inversion Hs; subst. destruct l1 as [|e1 l1]; [injection Hl as -> -> ->; assumption|]. eapply IH; [eassumption|exact Hl].
Qed.
Lemma read_all_ok W s k h x sizes : forall off l, hist W s k h -> W + 3 < 2 ^ 63 -> asked s x <> None -> Forall (roomy (s_db s) x) sizes ->
  u64 off -> scan (s_db s) x off l 0 -> (length l < length sizes)%nat -> read_all s x off sizes = Some (map want (map to_bent l), match test_flag (s_db s) x SYNCED with Ok true => RBuf [] | _ => RErr EIO end).
Proof.
  induction sizes as [|size sizes IH]; intros off l H HW3 Has Hr Hoff Hs Hlen; [cbn in Hlen; lia|]. cbn [read_all fstep].
  destruct (hist_inv _ _ _ _ H) as (HF & HA & HW). pose proof (fi_dr _ _ _ HF) as Hdr. pose proof (dr_inv _ _ _ Hdr) as Hi.
  assert (Hsm : small (s_db s)). { destruct (dr_next _ _ _ Hdr) as (n & Hn & Hle). exists n. split; [exact Hn|]. lia. }
  destruct (asked s x) as [pp|] eqn:Ep; [|contradiction]. destruct (asked_parent _ _ _ Hi Ep) as (Hh & p & Hp & Hp0 & _).
  assert (Hx : u64 x) by (apply has_inode_iff in Hh as [i Hi']; apply (inode_range _ _ _ Hi Hi')).
  inversion Hr as [|? ? Hr1 Hr2]; subst. destruct (h_readdir_total s x size off Hi) as (r & -> & Hc). cbn [obind].
  assert (Ew : w64 off = off) by (apply Z.mod_small; exact Hoff).
  assert (H0 : 0 < size) by (destruct Hr1; lia).
  pose proof (scan_bents _ _ _ _ _ Hi (proj1 HA) Hsm Hs) as Hb.
  set (fin := match test_flag (s_db s) x SYNCED with Ok true => RBuf [] | _ => RErr EIO end) in *.
  assert (Hmain : forall pre post, fits dirent_size size (map to_bent l) pre post -> (l = [] -> fin = RBuf []) ->
    match last (kernel_reads (concat (map rec_dirent pre))) with
    | None => Some ([], RBuf (concat (map rec_dirent pre)))
    | Some y => match read_all s x (ke_off y) sizes with Some (l, r) => Some (kernel_reads (concat (map rec_dirent pre)) ++ l, r) | None => None end
    end = Some (map want (map to_bent l), fin)).
  { intros pre post Hf Hnil. assert (Hbp : Forall bent_ok pre) by (eapply fits_sub; eassumption). rewrite (reads_dirents pre Hbp). destruct Hf as (El & Hf & _). destruct (Hf H0) as [Hf1 Hf2].
    apply map_eq_app in El as (l1 & l2 & -> & <- & <-). destruct (last l1) as [[[c n] a]|] eqn:Elast.
    - apply last_Some in Elast as [l1' El1]. assert (Hlast : last (map want (map to_bent l1)) = Some (want (to_bent (c, n, a)))) by (rewrite El1, !map_app; apply last_snoc). rewrite Hlast.
      destruct (scan_rest (s_db s) x p off _ 0 Hi Hx Hh Hp Hp0 Hs Hoff) as (_ & _ & Hall & _).
      destruct (Hall c n a) as (Hin & _); [rewrite El1; set_solver|]. destruct (inl_has _ _ _ _ _ Hi Hp Hp0 Hx Hh Hin) as (_ & _ & Hcu).
      cbn [to_bent want ke_off be_off]. replace (w64 c) with c by (symmetry; apply Z.mod_small; exact Hcu).
      rewrite (IH c l2); auto; [rewrite !map_app; reflexivity| |].
      + eapply scan_after_last; [exact Hs|]. rewrite El1. apply last_snoc.
      + rewrite app_length, El1, app_length in Hlen. cbn in Hlen. lia.
    - apply last_None in Elast as ->. cbn [map concat app last]. destruct l2 as [|[[c n] a] l2]; [rewrite (Hnil eq_refl); reflexivity|]. exfalso. cbn [app map to_bent be_name total_size fold_right] in Hf2.
      destruct (scan_rest (s_db s) x p off _ 0 Hi Hx Hh Hp Hp0 Hs Hoff) as (_ & _ & Hall & _). destruct (Hall c n a) as (Hin & _); [left|]. pose proof (roomy_inl _ _ _ _ _ _ Hi Hx Hr1 Hin). unfold total_size in Hf2. cbn in Hf2. lia. }
  inversion Hc as [l0 e pre post Hs' Hf Hpost E1|l0 pre _ Hs' Hf Hsy' E1|_ Hs' Hns E1|l0 e pre _ Hs' Hf He _ _ E1]; subst; rewrite Ew in Hs'.
  - destruct (scan_fun _ _ _ _ _ Hs _ _ Hs') as [<- <-]. apply (Hmain _ _ Hf). intros ->. destruct Hf as (El & _). symmetry in El. apply app_eq_nil in El as [_ ->]. destruct (Hpost H0 eq_refl).
  - destruct (scan_fun _ _ _ _ _ Hs _ _ Hs') as [<- _]. apply (Hmain _ _ Hf). intros ->. unfold fin. rewrite Hsy'; [reflexivity|]. destruct Hf as (El & _). symmetry in El. apply app_eq_nil in El as [-> _]. reflexivity.
  - destruct (scan_fun _ _ _ _ _ Hs _ _ Hs') as [-> _]. unfold fin. destruct (test_flag (s_db s) x SYNCED) as [[|]|]; [contradiction|reflexivity..].
  - destruct (scan_fun _ _ _ _ _ Hs _ _ Hs') as [_ <-]. contradiction.
Qed.
Lemma readdir_from d x off c n : Inv d -> u64 x -> readdir d x off = Ok (c, n) -> n = DOT \/ n = DOTDOT \/ lookup d x n = Ok c.
Proof.
  intros H Hx E. unfold readdir in E. destruct (off =? 0); [injection E as <- <-; auto|]. destruct (parent_of d x) as [par|]; [|discriminate]. destruct (negb (off =? par) && (off =? x)); [injection E as <- <-; auto|].
  right. right. destruct (from_key enc_ii (d_treei d) _) as [|[[q1 c1] e1] l] eqn:Ef; [discriminate|]. destruct (Z.eqb_spec q1 x) as [->|]; [|discriminate]. cbn [negb] in E.
  assert (Hin : forall k e, (k, e) ∈ ((x, c1), e1) :: l -> d_treei d !! k = Some e) by (intros k e Hk; rewrite <- Ef in Hk; apply elem_of_from in Hk as [Hk _]; exact Hk).
  destruct (c1 =? off).
  - destruct l as [|[[q2 c2] e2] l]; [discriminate|]. destruct (Z.eqb_spec q2 x) as [->|]; [|discriminate]. injection E as <- <-. apply lookup_treei; [assumption..|]. exists e2. split; [|reflexivity]. apply Hin. right. left.
  - injection E as <- <-. apply lookup_treei; [assumption..|]. exists e1. split; [|reflexivity]. apply Hin. left.
Qed.
(** ** the shape of a listing *)
Lemma sorted_shape x p (L : list Z) : StronglySorted (beyond x p) L -> Forall (fun c => c <> 0) L -> x ∈ L -> (p <> x -> p ∈ L) ->
  exists rest, L = x :: (if p =? x then [] else [p]) ++ rest /\ Forall (fun c => c <> x /\ c <> p) rest.
Proof.
  intros Hs H0 Hx Hp. destruct L as [|a L]; [inversion Hx|]. inversion Hs as [|? ? Hs1 Ha]; subst. inversion H0 as [|? ? Ha0 H01]; subst. rewrite Forall_forall in Ha.
  assert (Ea : a = x). { apply elem_of_cons in Hx as [->|Hx]; [reflexivity|]. destruct (Ha _ Hx) as [?|[Hr|(_ & Hr & _)]]; [contradiction|..]; unfold rank in Hr; rewrite Z.eqb_refl in Hr; [|discriminate Hr]. pose proof (rank_range x p a). unfold rank in *. lia. }
  subst a. assert (Hnx : forall c, c ∈ L -> c <> x) by (intros c Hc ->; exact (beyond_irrefl x p x Ha0 (Ha _ Hc))).
  destruct (Z.eqb_spec p x) as [->|Hpx].
  - exists L. split; [reflexivity|]. rewrite Forall_forall. intros c Hc. split; apply Hnx; exact Hc.
  - specialize (Hp Hpx). apply elem_of_cons in Hp as [?|Hp]; [contradiction|]. destruct L as [|b L]; [inversion Hp|]. inversion Hs1 as [|? ? Hs2 Hb]; subst. inversion H01 as [|? ? Hb0 H02]; subst. rewrite Forall_forall in Hb.
    assert (Eb : b = p). { apply elem_of_cons in Hp as [->|Hp]; [reflexivity|]. assert (Hbx : b <> x) by (apply Hnx; left). destruct (Hb _ Hp) as [?|[Hr|(_ & Hr & _)]]; [contradiction|..]; unfold rank in Hr; rewrite Z.eqb_refl in Hr; destruct (Z.eqb_spec p x); try contradiction; [|discriminate Hr].
      destruct (Z.eqb_spec b x); [contradiction|]. destruct (Z.eqb_spec b p); lia. }
    subst b. exists L. split; [reflexivity|]. rewrite Forall_forall. intros c Hc. split; [apply Hnx; right; exact Hc|]. intros ->. exact (beyond_irrefl x p p Hb0 (Hb _ Hc)).
Qed.
Lemma sorted_nodup x p (L : list Z) : StronglySorted (beyond x p) L -> Forall (fun c => c <> 0) L -> NoDup L.
Proof.
  induction 1 as [|a L Hs IH Ha]; intros H0; [constructor|]. inversion H0; subst. constructor; [|auto]. intros Hin. rewrite Forall_forall in Ha. exact (beyond_irrefl x p a H2 (Ha _ Hin)).
Qed.
Lemma goes_under W s k hs W2 s2 k2 : goes W s k hs W2 s2 k2 -> forall h x p, hist W s k h -> under (s_db s) x p -> forall e, e ∈ hs -> Inv (s_db (ev_s e)) /\ under (s_db (ev_s e)) x p.
Proof.
  induction 1 as [W s k|W s k q s' o sent es W2 s2 k2 A1 A2 A3 A4 A5 IH]; intros h x p H Hu e He; [inversion He|].
  destruct (hist_inv _ _ _ _ H) as (HF & HA & HW). assert (H1 : hist (W + weight s q) s' (kstep k q sent) (h ++ [Ev s q sent])) by (econstructor; eassumption).
  destruct (hist_inv _ _ _ _ H1) as (HF1 & _). pose proof (dr_inv _ _ _ (fi_dr _ _ _ HF1)) as Hi1.
  apply elem_of_cons in He as [->|He]; [split; [exact (dr_inv _ _ _ (fi_dr _ _ _ HF))|exact Hu]|]. eapply IH; [exact H1| |exact He]. exact (under_step _ _ _ _ _ _ _ _ HF HA A1 A2 A3 Hu Hi1).
Qed.
