(** C44: the attributes that the in-memory backend reports. *)
From Verif Require Export PropsMem3.

(** ** Specification *)
Definition type_of (k : kind) : Z := match k with KFile => S_IFREG | KLink _ => S_IFLNK | KDir => S_IFDIR end.
Definition blank (ty : Z) : attrs :=
  {| a_size := 0; a_nblocks := 0; a_uid := 0; a_gid := 0; a_atime := (0, 0); a_mtime := (0, 0); a_ctime := (0, 0); a_mode := ty |}.
(** all of [new], but of the type of [old] *)
Definition retyped (old new : attrs) : attrs :=
  {| a_size := a_size new; a_nblocks := a_nblocks new; a_uid := a_uid new; a_gid := a_gid new; a_atime := a_atime new; a_mtime := a_mtime new; a_ctime := a_ctime new;
     a_mode := ftype (a_mode old) + (a_mode new - ftype (a_mode new)) |}.
(** [described tr x a]: after the calls [tr], [a] is what was said about the object [x]: nothing but
    its type when it was made, then what update_attr set, and the new length when a write
    made the file longer. *)
Inductive described : list mev -> Z -> attrs -> Prop :=
| d_root : described [] ROOT (blank S_IFDIR)
| d_made tr m dir name k x : described (tr ++ [Mev m (MEmplace dir name k) (MRef x)]) x (blank (type_of k))
| d_update tr m x new old : described tr x old -> described (tr ++ [Mev m (MUpdateAttr x new) MUnit]) x (retyped old new)
| d_write tr m h buf off c x old : described tr x old -> m_fh m !! h = Some x -> described (tr ++ [Mev m (MPwrite h buf off) (MCount (Ok c))]) x
    (if file_size (writes tr x) <? off + Z.of_nat (length buf) then set_size (off + Z.of_nat (length buf)) old else old)
| d_other tr m o r x old : described tr x old -> r <> MRef x -> ~ touches x (Mev m o r) -> wr x (Mev m o r) = None -> described (tr ++ [Mev m o r]) x old.

Lemma low_or_high o n : 0 <= n < 2 ^ 32 -> Z.lor (Z.land o S_IFMT) (Z.land n (w32 (Z.lnot S_IFMT))) = Z.land o S_IFMT + (n - Z.land n S_IFMT).
Proof.
  intros Hn.
  assert (Hc : Z.land n (w32 (Z.lnot S_IFMT)) = Z.ldiff n S_IFMT).
  { rewrite Z.ldiff_land. apply Z.bits_inj'. intros i Hi. rewrite !Z.land_spec. unfold w32. destruct (Z.lt_ge_cases i 32) as [Hl|Hl].
    - rewrite Z.mod_pow2_bits_low by lia. reflexivity.
    - replace (Z.testbit n i) with false; [reflexivity|]. symmetry. rewrite <- (Z.mod_small n (2 ^ 32)) by lia. apply Z.mod_pow2_bits_high. lia. }
  rewrite Hc. rewrite (Z.sub_nocarry_ldiff n (Z.land n S_IFMT)).
  - replace (Z.ldiff n (Z.land n S_IFMT)) with (Z.ldiff n S_IFMT).
    + rewrite <- Z.lxor_lor, Z.add_nocarry_lxor; [reflexivity|..]; apply Z.bits_inj'; intros i Hi; rewrite !Z.land_spec, Z.ldiff_spec, Z.bits_0; destruct (Z.testbit o i), (Z.testbit n i), (Z.testbit S_IFMT i); reflexivity.
    + apply Z.bits_inj'. intros i Hi. rewrite !Z.ldiff_spec, Z.land_spec. destruct (Z.testbit n i), (Z.testbit S_IFMT i); reflexivity.
  - apply Z.bits_inj'. intros i Hi. rewrite Z.ldiff_spec, Z.land_spec, Z.bits_0. destruct (Z.testbit n i), (Z.testbit S_IFMT i); reflexivity.
Qed.
Lemma retyped_updated old new : attrs_ok new -> updated old new = retyped old new.
Proof.
  intros Hok. unfold updated, retyped. f_equal. unfold ftype. apply low_or_high. unfold attrs_ok in Hok. tauto.
Qed.
Lemma described_inv lim ord m tr : lim < 2 ^ 63 -> mhist lim ord m tr -> forall x n, m_nodes m !! x = Some n -> described tr x (nd_attr n).
Proof.
  intros Hlim. induction 1 as [|m tr o r m' H IH Hl E]; [intros x n Hx; cbn [m_nodes mem0] in Hx; apply lookup_singleton_Some in Hx as [<- <-]; constructor|].
  pose proof (mhist_inv _ _ _ _ Hlim H) as HC. pose proof (ci_inv _ _ HC) as HI. pose proof (mi_nodes _ HI) as HN. intros x n Hx.
  assert (Hsame : m_nodes m' = m_nodes m -> (forall y, m_nodes m !! y <> None -> r <> MRef y) -> (forall y, ~ touches y (Mev m o r)) -> (forall y, wr y (Mev m o r) = None) -> described (tr ++ [Mev m o r]) x (nd_attr n)).
  { intros Em Hr Ht Hw. rewrite Em in Hx. apply d_other; auto. apply Hr. congruence. }
  assert (Hns : forall y, m_nodes m !! y <> None -> y < m_next m). { intros y Hy. destruct (m_nodes m !! y) as [ny|] eqn:Ey; [|congruence]. apply (ni_range _ _ HN _ _ Ey). }
  destruct o as [dir name k|dir name|y a|c|path|path|path|path|h|h count off|h buf off|h]; cbn [mstep] in E.
  - destruct (m_nodes m !! dir) as [[a [d|d|kids] ow]|] eqn:Ed; try discriminate E. injection E as <- <-. cbn [m_nodes] in Hx. destruct (kids !! name) as [old|] eqn:Ek.
    + apply d_other; [apply IH; exact Hx| |exact (fun F => F)|reflexivity]. intros F. injection F as F. assert (x < m_next m) by (apply Hns; congruence). lia.
    + destruct (decide (x = m_next m)) as [->|Hne]; [rewrite lookup_insert in Hx; injection Hx as <-; destruct k; cbn [new_node nd_attr]; [apply (d_made tr m dir name KFile)|apply (d_made tr m dir name (KLink dest))|apply (d_made tr m dir name KDir)]|]. rewrite lookup_insert_ne in Hx by congruence.
      apply d_other; [|congruence|exact (fun F => F)|reflexivity]. destruct (decide (x = dir)) as [->|Hd]; [rewrite lookup_insert in Hx; injection Hx as <-; exact (IH _ _ Ed)|rewrite lookup_insert_ne in Hx by congruence; apply IH; exact Hx].
  - destruct (m_nodes m !! dir) as [[a [d|d|kids] ow]|] eqn:Ed; try discriminate E. destruct (kids !! name) as [k|] eqn:Ek; injection E as <- <-; [|apply Hsame; auto; discriminate].
    cbn [set_nodes m_nodes] in Hx. apply destroy_lookup in Hx as [Hx _]. apply d_other; [|discriminate|exact (fun F => F)|reflexivity]. destruct (decide (x = dir)) as [->|Hd]; [rewrite lookup_insert in Hx; injection Hx as <-; exact (IH _ _ Ed)|rewrite lookup_insert_ne in Hx by congruence; apply IH; exact Hx].
  - destruct (m_nodes m !! y) as [[a0 b ow]|] eqn:Ey; try discriminate E. injection E as <- <-. cbn [set_nodes m_nodes] in Hx. destruct (decide (x = y)) as [->|Hne].
    + rewrite lookup_insert in Hx. injection Hx as <-. cbn [nd_attr]. rewrite retyped_updated by exact Hl. apply d_update. exact (IH _ _ Ey).
    + rewrite lookup_insert_ne in Hx by congruence. apply d_other; [apply IH; exact Hx|discriminate|cbn; congruence|reflexivity].
  - injection E as <- <-. apply Hsame; auto; discriminate.
  - apply with_node_total in E as [(e & -> & ->)|(id & nn & _ & _ & Hn & E)]; [apply Hsame; auto; discriminate| |exact HI]. injection E as <- <-. apply Hsame; auto; discriminate.
  - apply with_node_total in E as [(e & -> & ->)|(id & nn & _ & _ & Hn & E)]; [apply Hsame; auto; discriminate| |exact HI]. injection E as <- <-. apply Hsame; auto; discriminate.
  - apply with_node_total in E as [(e & -> & ->)|(id & nn & _ & _ & Hn & E)]; [apply Hsame; auto; discriminate| |exact HI]. destruct (nd_body nn) as [d|d|d] eqn:Eb; injection E as <- <-; apply Hsame; auto; discriminate.
  - apply with_node_total in E as [(e & -> & ->)|(id & nn & _ & _ & Hn & E)]; [apply Hsame; auto; discriminate| |exact HI]. destruct (nd_body nn) as [d|d|d] eqn:Eb; injection E as <- <-; apply Hsame; auto; discriminate.
  - destruct (m_fh m !! h) as [y|]; [|discriminate]. destruct (m_nodes m !! y); [|discriminate]. injection E as <- <-. apply Hsame; auto; discriminate.
  - destruct (m_fh m !! h) as [y|]; [|discriminate]. destruct (m_nodes m !! y) as [[a [d|d|d] ow]|]; try discriminate. destruct (f_pread d count off) as [rr| | |]; try discriminate. injection E as <- <-. apply Hsame; auto; discriminate.
  - destruct Hl as [Hb Ho]. destruct (m_fh m !! h) as [y|] eqn:Eh; [|discriminate]. destruct (m_nodes m !! y) as [[a [d|d|d] ow]|] eqn:Ey; try discriminate.
    pose proof (ci_data _ _ HC _ _ _ _ Ey) as ->. pose proof (ni_data _ _ HN _ _ _ _ Ey) as Hlen. cbn in Hlen. rewrite content_length in Hlen.
    rewrite pwrite_spec in E by assumption. cbn [obind] in E. destruct (Z.ltb_spec off 0) as [|H0]; [injection E as <- <-; apply Hsame; auto; discriminate|].
    set (req := off + Z.of_nat (length buf)) in *. set (ws := writes tr y) in *. destruct ((file_size ws <? req) && (lim <? req)) eqn:Eg; [injection E as <- <-; apply Hsame; auto; discriminate|]. injection E as <- <-.
    cbn [set_nodes m_nodes] in Hx. destruct (decide (x = y)) as [->|Hne].
    + rewrite lookup_insert in Hx. injection Hx as <-. cbn [nd_attr]. pose proof (d_write tr m h buf off (Z.of_nat (length buf)) y a (IH _ _ Ey) Eh) as Hd. fold ws req in Hd. destruct (file_size ws <? req); exact Hd.
    + rewrite lookup_insert_ne in Hx by congruence. apply d_other; [apply IH; exact Hx|discriminate|exact (fun F => F)|]. unfold wr. cbn [e_op e_res e_mem]. rewrite Eh. rewrite decide_False by congruence. reflexivity.
  - destruct (m_dh m !! h) as [[y st rest kids]|] eqn:Eh; [|discriminate].
    destruct st; [injection E as <- <-; apply Hsame; auto; discriminate..|].
    destruct (m_nodes m !! y) as [[a [d|d|kids'] ow]|]; try discriminate. destruct (decide (kids' = kids)); [|discriminate]. destruct rest; injection E as <- <-; apply Hsame; auto; discriminate.
Qed.
(** ** C44 *)
(** lstat of a path, while connected, tells what was said about the object there. *)
Theorem C44_attributes : forall lim ord m tr path comps x, lim < 2 ^ 63 -> mhist lim ord m tr -> m_conn m = true -> spelled path comps false -> at_path m comps x ->
  exists a, mstep lim ord m (MLstat path) = Done (MStat (Ok a), m) /\ described tr x a.
Proof.
  intros lim ord m tr path comps x Hlim H Hc Hs Hat. destruct (at_live _ _ _ _ (mi_nodes _ (ci_inv _ _ (mhist_inv _ _ _ _ Hlim H))) Hat) as [n Hn].
  exists (nd_attr n). split; [|eapply described_inv; eassumption].
  destruct (C44_found lim ord m tr Hlim H (MLstat path) path comps Hc eq_refl false x Hs Hat ltac:(discriminate)) as (n' & r & m' & Hn' & E & Ho). rewrite Hn in Hn'. injection Hn' as <-. rewrite E. cbn [of_node] in Ho. destruct Ho as [-> ->]. reflexivity.
Qed.
Print Assumptions C44_attributes.
(** The same through an open file. *)
Theorem C44_fstat_attributes : forall lim ord m tr h x n, lim < 2 ^ 63 -> mhist lim ord m tr -> m_fh m !! h = Some x -> m_nodes m !! x = Some n ->
  exists a, mstep lim ord m (MFstat h) = Done (MStat (Ok a), m) /\ described tr x a.
Proof. intros lim ord m tr h x n Hlim H Hh Hn. exists (nd_attr n). split; [cbn [mstep]; rewrite Hh, Hn; reflexivity|eapply described_inv; eassumption]. Qed.
Print Assumptions C44_fstat_attributes.
(** and [described] leaves no choice *)
Theorem C44_described_fun : forall tr x a a', described tr x a -> described tr x a' -> a = a'.
Proof.
  intros tr x a a' H. revert a'. induction H as [|tr m dir name k x|tr m x new old H IH|tr m h buf off c x old H IH Hh|tr m o r x old H IH H1 H2 H3]; intros a' H'.
  - inversion H' as [|? ? ? ? ? ? E|? ? ? ? ? ? E|? ? ? ? ? ? ? ? ? ? E|? ? ? ? ? ? ? ? ? ? E]; try (apply app_nil in E as [_ E]; discriminate E). reflexivity.
  - inversion H' as [E|? ? ? ? ? ? E|? ? ? ? ? ? E|? ? ? ? ? ? ? ? ? ? E|? ? ? ? ? ? ? ? ? ? E]; try (symmetry in E; apply app_nil in E as [_ E]; discriminate E); apply app_inj_2 in E as [-> E]; try reflexivity; injection E; intros; subst; congruence.
  - inversion H' as [E|? ? ? ? ? ? E|? ? ? ? ? ? E|? ? ? ? ? ? ? ? ? ? E|? ? ? ? ? ? ? ? ? ? E]; try (symmetry in E; apply app_nil in E as [_ E]; discriminate E); apply app_inj_2 in E as [-> E]; try reflexivity; try discriminate E; injection E; intros; subst.
    + f_equal. apply IH. assumption.
    + exfalso. match goal with H : ~ touches _ _ |- _ => apply H; reflexivity end.
  - inversion H' as [E|? ? ? ? ? ? E|? ? ? ? ? ? E|? ? ? ? ? ? ? ? ? ? E|? ? ? ? ? ? ? ? ? ? E]; try (symmetry in E; apply app_nil in E as [_ E]; discriminate E); apply app_inj_2 in E as [-> E]; try reflexivity; try discriminate E; injection E; intros; subst.
    + match goal with H : described _ _ ?o |- _ = (if _ then set_size _ ?o else ?o) => rewrite (IH _ H); reflexivity end.
    + exfalso. match goal with H : wr _ _ = None |- _ => unfold wr in H; cbn in H; rewrite decide_True in H by assumption; discriminate H end.
  - inversion H' as [E|? ? ? ? ? ? E|? ? ? ? ? ? E|? ? ? ? ? ? ? ? ? ? E|? ? ? ? ? ? ? ? ? ? E]; try (symmetry in E; apply app_nil in E as [_ E]; discriminate E); apply app_inj_2 in E as [-> E]; try reflexivity; injection E; intros; subst.
    + congruence.
    + exfalso. apply H2. reflexivity.
    + exfalso. unfold wr in H3; cbn in H3; rewrite decide_True in H3 by assumption; discriminate H3.
    + apply IH. assumption.
Qed.
Print Assumptions C44_described_fun.
(** a file made, chmod-ed to a type it is not, and written *)
Definition described_os : list mop := [MEmplace 0 nA KDir; MEmplace 1 nF KFile; MUpdateAttr 2 (Attrs 3 1 5 6 (1, 1) (2, 2) (3, 3) 16804); MOpen [47; 97; 47; 102]; MPwrite 0 [7; 7; 7; 7] 4].
Example C44_attributes_sample : mhist LIM ord0 (mst described_os) (mtr described_os) /\ m_conn (mst described_os) = true /\ spelled [47; 97; 47; 102] [nA; nF] false /\
  mres_of (mst described_os) (MLstat [47; 97; 47; 102]) = Some (MStat (Ok (Attrs 8 1 5 6 (1, 1) (2, 2) (3, 3) 33188))).
Proof. split; [|split; [vm_compute; reflexivity|split; [|vm_compute; reflexivity]]]. - apply mst_hist. repeat constructor; vm_compute; try discriminate; reflexivity. - exact spelled_af. Qed.
