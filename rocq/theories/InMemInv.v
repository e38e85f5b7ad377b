(** Histories of the in-memory backend and what holds in all of them. *)
From Verif Require Export InMem.

(** ** Specification: which calls are considered *)
(** Buffers fit into memory, offsets into off_t; attributes are in range. *)
Definition mlegal (o : mop) : Prop :=
  match o with
  | MUpdateAttr _ a => attrs_ok a
  | MPread _ count off => 0 <= count < 2 ^ 63 /\ - 2 ^ 63 <= off < 2 ^ 63
  | MPwrite _ buf off => Z.of_nat (length buf) < 2 ^ 63 /\ - 2 ^ 63 <= off < 2 ^ 63
  | MEmplace _ _ (KLink dest) => Z.of_nat (length dest) < 2 ^ 63
  | _ => True
  end.
Record mev := Mev { e_mem : mem; e_op : mop; e_res : mres }.
Section Hist.
  Context (lim : Z) (ord : gmap bytes Z -> list bytes).
  (** [mhist m tr]: [tr] are the calls so far, with the state each was made in *)
  Inductive mhist : mem -> list mev -> Prop :=
  | mh_start : mhist mem0 []
  | mh_step m tr o r m' : mhist m tr -> mlegal o -> mstep lim ord m o = Done (r, m') -> mhist m' (tr ++ [Mev m o r]).
End Hist.

(** ** the heap is a tree *)
Definition is_body (b : body) (mode : Z) : Prop :=
  match b with BFile _ => ftype mode = S_IFREG | BLink _ => ftype mode = S_IFLNK | BDir _ => ftype mode = S_IFDIR end.
Record NInv (next : Z) (ns : gmap Z nd) : Prop := {
  ni_root : exists a kids ow, ns !! ROOT = Some (Nd a (BDir kids) ow);
  ni_range : forall x n, ns !! x = Some n -> 0 <= x < next;
  ni_owner : forall x n, ns !! x = Some n -> x <> ROOT -> (nd_owner n).1 < x /\ exists a kids ow, ns !! (nd_owner n).1 = Some (Nd a (BDir kids) ow) /\ kids !! (nd_owner n).2 = Some x;
  ni_kid : forall d a kids ow nm c, ns !! d = Some (Nd a (BDir kids) ow) -> kids !! nm = Some c -> c <> ROOT /\ exists n, ns !! c = Some n /\ nd_owner n = (d, nm);
  ni_type : forall x n, ns !! x = Some n -> is_body (nd_body n) (a_mode (nd_attr n)) /\ attrs_ok (nd_attr n);
  ni_data : forall x a b ow, ns !! x = Some (Nd a b ow) -> match b with BFile d | BLink d => Z.of_nat (length d) < 2 ^ 63 | _ => True end }.
Record MInv (m : mem) : Prop := {
  mi_nodes : NInv (m_next m) (m_nodes m);
  mi_fh : forall h x, m_fh m !! h = Some x -> 0 <= x < m_next m /\ forall n, m_nodes m !! x = Some n -> exists d, nd_body n = BFile d;
  mi_hnext : forall h, m_hnext m <= h -> m_fh m !! h = None /\ m_dh m !! h = None;
  mi_dh : forall h dh, m_dh m !! h = Some dh -> 0 <= dh_node dh < m_next m /\ forall n, m_nodes m !! dh_node dh = Some n -> exists k, nd_body n = BDir k }.

Lemma kid_gt next ns d a kids ow nm c : NInv next ns -> ns !! d = Some (Nd a (BDir kids) ow) -> kids !! nm = Some c -> d < c.
Proof. intros H Hd Hc. destruct (ni_kid _ _ H _ _ _ _ _ _ Hd Hc) as (Hc0 & n & Hn & Ho). destruct (ni_owner _ _ H _ _ Hn Hc0) as [Hlt _]. rewrite Ho in Hlt. exact Hlt. Qed.
Lemma inside_fuel next ns k f : NInv next ns -> forall g x, (Z.to_nat x <= f)%nat -> (Z.to_nat x <= g)%nat -> inside f ns k x = inside g ns k x.
Proof.
  intros H. induction f as [|f IH]; intros [|g] x Hf Hg; [reflexivity|..].
  - cbn [inside]. destruct (x =? k); [reflexivity|]. destruct (ns !! x) as [n|] eqn:En; [|reflexivity]. destruct (ni_range _ _ H _ _ En). assert (x = 0) by lia. subst x. reflexivity.
  - cbn [inside]. destruct (x =? k); [reflexivity|]. destruct (ns !! x) as [n|] eqn:En; [|reflexivity]. destruct (ni_range _ _ H _ _ En). assert (x = 0) by lia. subst x. reflexivity.
  - cbn [inside]. destruct (x =? k); [reflexivity|]. destruct (ns !! x) as [n|] eqn:En; [|reflexivity]. destruct (Z.eqb_spec x ROOT) as [|Hr]; [reflexivity|]. destruct (ni_owner _ _ H _ _ En Hr) as [Hlt _]. destruct (ni_range _ _ H _ _ En). unfold ROOT in Hr. apply IH; lia.
Qed.
Definition outside (ns : gmap Z nd) (k x : Z) : Prop := inside (Z.to_nat x) ns k x = false.
Lemma out_owner next ns k x n : NInv next ns -> ns !! x = Some n -> x <> ROOT -> x <> k -> outside ns k x <-> outside ns k (nd_owner n).1.
Proof.
  intros H En Hr Hk. destruct (ni_owner _ _ H _ _ En Hr) as [Hlt _]. destruct (ni_range _ _ H _ _ En). unfold outside, ROOT in *. destruct (Z.to_nat x) as [|g] eqn:Eg; [lia|]. cbn [inside]. rewrite (proj2 (Z.eqb_neq _ _) Hk), En, (proj2 (Z.eqb_neq x ROOT)) by exact Hr.
  rewrite (inside_fuel next ns k g H (Z.to_nat (nd_owner n).1)) by lia. tauto.
Qed.
Lemma out_root ns k : k <> ROOT -> outside ns k ROOT.
Proof. intros H. unfold outside. change (Z.to_nat ROOT) with 0%nat. cbn [inside]. rewrite (proj2 (Z.eqb_neq ROOT k)); [reflexivity|congruence]. Qed.
Lemma out_self ns k : ~ outside ns k k.
Proof. unfold outside. destruct (Z.to_nat k); cbn [inside]; rewrite Z.eqb_refl; discriminate. Qed.
Lemma destroy_lookup ns k x n : destroy ns k !! x = Some n <-> ns !! x = Some n /\ outside ns k x.
Proof. unfold destroy. rewrite map_filter_lookup_Some. cbn. unfold outside. tauto. Qed.
(** taking [k] out of its directory does not change what is inside it *)
Lemma out_relink next ns d a kids ow nm k x b : NInv next ns -> ns !! d = Some (Nd a (BDir kids) ow) -> outside (<[d := Nd b (BDir (delete nm kids)) ow]> ns) k x <-> outside ns k x.
Proof.
  intros H Hd. unfold outside. generalize (Z.to_nat x) as f. intros f. revert x. induction f as [|f IH]; intros x; cbn [inside]; [tauto|]. destruct (x =? k); [tauto|].
  destruct (decide (x = d)) as [->|Hne]; [rewrite lookup_insert, Hd; cbn; destruct (d =? ROOT); [tauto|apply IH]|]. rewrite lookup_insert_ne by congruence. destruct (ns !! x); [|tauto]. destruct (x =? ROOT); [tauto|apply IH].
Qed.
Lemma remove_inv next ns d a kids ow nm k : NInv next ns -> ns !! d = Some (Nd a (BDir kids) ow) -> kids !! nm = Some k ->
  NInv next (destroy (<[d := Nd a (BDir (delete nm kids)) ow]> ns) k).
Proof.
  intros H Hd Hk. destruct (ni_kid _ _ H _ _ _ _ _ _ Hd Hk) as (Hk0 & nk & Hnk & Hok). set (ns1 := <[d := Nd a (BDir (delete nm kids)) ow]> ns).
  assert (Hout : forall x, outside ns1 k x <-> outside ns k x) by (intros x; eapply out_relink; eassumption).
  assert (Hlk : forall x n, destroy ns1 k !! x = Some n -> outside ns k x /\ exists n0, ns !! x = Some n0 /\ nd_owner n0 = nd_owner n /\ nd_attr n0 = nd_attr n /\ (x <> d /\ n0 = n \/ x = d /\ n = Nd a (BDir (delete nm kids)) ow)).
  { intros x n Hx. apply destroy_lookup in Hx as [Hx Ho]. split; [apply Hout; exact Ho|]. destruct (decide (x = d)) as [->|Hne]; [unfold ns1 in Hx; rewrite lookup_insert in Hx; injection Hx as <-; eauto 10|]. unfold ns1 in Hx. rewrite lookup_insert_ne in Hx by congruence. eauto 10. }
  assert (Hlk2 : forall x n, ns !! x = Some n -> outside ns k x -> x <> d -> destroy ns1 k !! x = Some n).
  { intros x n Hx Ho Hne. apply destroy_lookup. split; [unfold ns1; rewrite lookup_insert_ne by congruence; exact Hx|apply Hout; exact Ho]. }
  assert (Hod : outside ns k d). { destruct (decide (d = ROOT)) as [->|Hdr]; [apply out_root; exact Hk0|]. assert (Hdk : d < k) by (eapply kid_gt; eassumption). 
    (* d is not inside k: otherwise going up from d reaches k, but the numbers only get smaller *)
    assert (Hsm : forall f x, x < k -> inside f ns k x = false).
    { intros f. induction f as [|f IH]; intros x Hx; cbn [inside]; rewrite (proj2 (Z.eqb_neq x k)) by lia; [reflexivity|]. destruct (ns !! x) as [n|] eqn:En; [|reflexivity]. destruct (Z.eqb_spec x ROOT) as [|Hr]; [reflexivity|]. destruct (ni_owner _ _ H _ _ En Hr) as [Hlt _]. apply IH. lia. }
    apply Hsm. exact Hdk. }
  assert (Hd1 : destroy ns1 k !! d = Some (Nd a (BDir (delete nm kids)) ow)). { apply destroy_lookup. split; [unfold ns1; apply lookup_insert|apply Hout; exact Hod]. }
  split.
  - destruct (decide (d = ROOT)) as [->|Hdr]; [eauto|]. destruct (ni_root _ _ H) as (a0 & k0 & o0 & Hr). exists a0, k0, o0. apply Hlk2; [exact Hr|apply out_root; exact Hk0|congruence].
  - intros x n Hx. destruct (Hlk _ _ Hx) as (_ & n0 & Hx0 & _). exact (ni_range _ _ H _ _ Hx0).
  - intros x n Hx Hr. destruct (Hlk _ _ Hx) as (Ho & n0 & Hx0 & Eo & _ & _). destruct (ni_owner _ _ H _ _ Hx0 Hr) as (Hlt & a0 & k0 & o0 & Hp & Hc). rewrite <- Eo. split; [exact Hlt|].
    assert (Hxk : x <> k) by (intros ->; exact (out_self _ _ Ho)). assert (Hop : outside ns k (nd_owner n0).1) by (apply (out_owner _ _ _ _ _ H Hx0 Hr Hxk); exact Ho).
    destruct (decide ((nd_owner n0).1 = d)) as [Ed|Hne].
    + rewrite Ed in *. exists a, (delete nm kids), ow. split; [exact Hd1|]. assert (k0 = kids) by congruence. subst k0. rewrite lookup_delete_ne; [exact Hc|]. intros En. rewrite <- En in Hc. congruence.
    + exists a0, k0, o0. split; [apply Hlk2; assumption|exact Hc].
  - intros d' a' kids' ow' nm' c Hd' Hc. assert (Hd0 : exists kids0, ns !! d' = Some (Nd a' (BDir kids0) ow') /\ kids0 !! nm' = Some c /\ outside ns k d' /\ (d', nm') <> (d, nm)).
    { destruct (Hlk _ _ Hd') as (Ho & n0 & Hx0 & Eo & Ea & [[Hne En]|[-> En]]); [subst n0; exists kids'; repeat split; try assumption; congruence|]. injection En as -> -> ->. exists kids. apply lookup_delete_Some in Hc as [Hn Hc]. repeat split; try assumption. congruence. }
    destruct Hd0 as (kids0 & Hd0 & Hc0 & Ho & Hne). destruct (ni_kid _ _ H _ _ _ _ _ _ Hd0 Hc0) as (Hcr & n & Hn & On). split; [exact Hcr|].
    assert (Hck : c <> k) by (intros ->; assert (n = nk) by congruence; subst n; congruence).
    assert (Hoc : outside ns k c) by (apply (out_owner _ _ _ _ _ H Hn Hcr Hck); rewrite On; exact Ho).
    destruct (decide (c = d)) as [->|Hcd]; [|exists n; split; [apply Hlk2; assumption|exact On]].
    exists (Nd a (BDir (delete nm kids)) ow). split; [exact Hd1|]. assert (n = Nd a (BDir kids) ow) by congruence. subst n. exact On.
  - intros x n Hx. destruct (Hlk _ _ Hx) as (_ & n0 & Hx0 & _ & Ea & [[_ ->]|[-> ->]]); [exact (ni_type _ _ H _ _ Hx0)|]. assert (n0 = Nd a (BDir kids) ow) by congruence. subst n0. destruct (ni_type _ _ H _ _ Hd) as [? ?]. split; assumption.
  - intros x a' b ow' Hx. destruct (Hlk _ _ Hx) as (_ & n0 & Hx0 & _ & Ea & [[_ ->]|[-> En]]); [exact (ni_data _ _ H _ _ _ _ Hx0)|]. injection En as _ -> _. exact I.
Qed.
Lemma emplace_inv next ns d a kids ow nm k : NInv next ns -> ns !! d = Some (Nd a (BDir kids) ow) -> kids !! nm = None -> 0 < next -> match k with KLink dest => Z.of_nat (length dest) < 2 ^ 63 | _ => True end ->
  NInv (next + 1) (<[next := new_node k (d, nm)]> (<[d := Nd a (BDir (<[nm := next]> kids)) ow]> ns)).
Proof.
  intros H Hd Hnm Hnx Hk. set (ns1 := <[d := _]> ns). destruct (ni_range _ _ H _ _ Hd) as [Hd0 Hdn].
  assert (Hfresh : ns !! next = None) by (destruct (ns !! next) as [n|] eqn:E; [destruct (ni_range _ _ H _ _ E); lia|reflexivity]).
  assert (Hd1 : <[next := new_node k (d, nm)]> ns1 !! d = Some (Nd a (BDir (<[nm := next]> kids)) ow)) by (rewrite lookup_insert_ne by lia; apply lookup_insert).
  assert (Hl : forall x n, <[next := new_node k (d, nm)]> ns1 !! x = Some n -> x = next /\ n = new_node k (d, nm) \/ x <> next /\ x = d /\ n = Nd a (BDir (<[nm := next]> kids)) ow \/ x <> next /\ x <> d /\ ns !! x = Some n).
  { intros x n Hx. destruct (decide (x = next)) as [->|Hne]; [rewrite lookup_insert in Hx; injection Hx as <-; auto|]. rewrite lookup_insert_ne in Hx by congruence. destruct (decide (x = d)) as [->|Hxd]; [unfold ns1 in Hx; rewrite lookup_insert in Hx; injection Hx as <-; auto|]. unfold ns1 in Hx. rewrite lookup_insert_ne in Hx by congruence. auto. }
  assert (Hl2 : forall x n, ns !! x = Some n -> x <> d -> <[next := new_node k (d, nm)]> ns1 !! x = Some n) by (intros x n Hx Hne; rewrite lookup_insert_ne by congruence; unfold ns1; rewrite lookup_insert_ne by congruence; exact Hx).
  split.
  - destruct (ni_root _ _ H) as (a0 & k0 & o0 & Hr). destruct (decide (d = ROOT)) as [->|Hdr]; [eauto|]. exists a0, k0, o0. apply Hl2; congruence.
  - intros x n Hx. destruct (Hl _ _ Hx) as [[-> _]|[(_ & -> & _)|(_ & _ & Hx0)]]; [lia|lia|]. destruct (ni_range _ _ H _ _ Hx0). lia.
  - intros x n Hx Hr. destruct (Hl _ _ Hx) as [[-> ->]|[(_ & -> & ->)|(Hxn & Hxd & Hx0)]].
    + assert (Eo : nd_owner (new_node k (d, nm)) = (d, nm)) by (destruct k; reflexivity). rewrite Eo. cbn [fst snd]. split; [lia|]. eexists _, _, _. split; [exact Hd1|]. apply lookup_insert.
    + destruct (ni_owner _ _ H _ _ Hd Hr) as (Hlt & a0 & k0 & o0 & Hp & Hc). cbn [nd_owner] in *. split; [exact Hlt|]. exists a0, k0, o0. split; [apply Hl2; [exact Hp|lia]|exact Hc].
    + destruct (ni_owner _ _ H _ _ Hx0 Hr) as (Hlt & a0 & k0 & o0 & Hp & Hc). split; [exact Hlt|]. destruct (decide ((nd_owner n).1 = d)) as [Ed|Hne]; [|exists a0, k0, o0; auto].
      rewrite Ed in *. eexists _, _, _. split; [exact Hd1|]. assert (k0 = kids) by congruence. subst k0. rewrite lookup_insert_ne; [exact Hc|]. congruence.
  - intros d' a' kids' ow' nm' c Hd' Hc. destruct (Hl _ _ Hd') as [[-> E]|[(_ & -> & E)|(Hxn & Hxd & Hx0)]].
    + destruct k; try discriminate E. injection E as _ -> _. rewrite lookup_empty in Hc. discriminate.
    + injection E as -> -> ->. destruct (decide (nm' = nm)) as [->|Hne].
      * rewrite lookup_insert in Hc. injection Hc as <-. split; [unfold ROOT; lia|]. eexists. split; [apply lookup_insert|]. destruct k; reflexivity.
      * rewrite lookup_insert_ne in Hc by congruence. destruct (ni_kid _ _ H _ _ _ _ _ _ Hd Hc) as (Hcr & n & Hn & On). split; [exact Hcr|]. assert (c <> d) by (pose proof (kid_gt _ _ _ _ _ _ _ _ H Hd Hc); lia). eauto.
    + destruct (ni_kid _ _ H _ _ _ _ _ _ Hx0 Hc) as (Hcr & n & Hn & On). split; [exact Hcr|]. destruct (decide (c = d)) as [->|Hcd]; [|eauto]. eexists. split; [exact Hd1|]. assert (n = Nd a (BDir kids) ow) by congruence. subst n. exact On.
  - intros x n Hx. destruct (Hl _ _ Hx) as [[-> ->]|[(_ & -> & ->)|(_ & _ & Hx0)]]; [|exact (ni_type _ _ H _ _ Hd)|exact (ni_type _ _ H _ _ Hx0)].
    split; [destruct k; reflexivity|]. destruct k; repeat split; try (vm_compute; reflexivity); vm_compute; discriminate.
  - intros x a' b ow' Hx. destruct (Hl _ _ Hx) as [[-> E]|[(_ & -> & E)|(_ & _ & Hx0)]]; [|injection E as _ -> _; exact I|exact (ni_data _ _ H _ _ _ _ Hx0)].
    destruct k; injection E as _ -> _; cbn; [lia|exact Hk|exact I].
Qed.
(** changing the attributes or the contents of a node, not its kind *)
Lemma set_inv next ns x a b ow a' b' : NInv next ns -> ns !! x = Some (Nd a b ow) -> is_body b' (a_mode a') -> attrs_ok a' ->
  match b, b' with BDir k, BDir k' => k = k' | BFile _, BFile d | BLink _, BLink d => Z.of_nat (length d) < 2 ^ 63 | _, _ => False end -> NInv next (<[x := Nd a' b' ow]> ns).
Proof.
  intros H Hx Hb Ha Hbb. assert (Hl : forall y n, <[x := Nd a' b' ow]> ns !! y = Some n -> exists n0, ns !! y = Some n0 /\ nd_owner n0 = nd_owner n /\ (y = x /\ n = Nd a' b' ow \/ n0 = n)).
  { intros y n Hy. destruct (decide (y = x)) as [->|Hne]; [rewrite lookup_insert in Hy; injection Hy as <-; eauto 10|]. rewrite lookup_insert_ne in Hy by congruence. eauto 10. }
  assert (Hd : forall d a0 k o0, ns !! d = Some (Nd a0 (BDir k) o0) -> exists a1, <[x := Nd a' b' ow]> ns !! d = Some (Nd a1 (BDir k) o0)).
  { intros d a0 k o0 Hd. destruct (decide (d = x)) as [->|Hne]; [|rewrite lookup_insert_ne by congruence; eauto]. assert (E : Nd a b ow = Nd a0 (BDir k) o0) by congruence. injection E as -> -> ->. destruct b'; try contradiction. subst kids. exists a'. apply lookup_insert. }
  split.
  - destruct (ni_root _ _ H) as (a0 & k0 & o0 & Hr). destruct (Hd _ _ _ _ Hr) as [a1 ?]. eauto.
  - intros y n Hy. destruct (Hl _ _ Hy) as (n0 & H0 & _). exact (ni_range _ _ H _ _ H0).
  - intros y n Hy Hr. destruct (Hl _ _ Hy) as (n0 & H0 & <- & _). destruct (ni_owner _ _ H _ _ H0 Hr) as (Hlt & a0 & k0 & o0 & Hp & Hc). split; [exact Hlt|]. destruct (Hd _ _ _ _ Hp) as [a1 ?]. eauto.
  - intros d a0 kids o0 nm c Hd' Hc. assert (Hd0 : exists a1, ns !! d = Some (Nd a1 (BDir kids) o0)).
    { destruct (Hl _ _ Hd') as (n0 & H0 & _ & [[-> E]| ->]); [|eauto]. injection E as -> <- ->. destruct b; try contradiction. subst kids0. eauto. }
    destruct Hd0 as [a1 Hd0]. destruct (ni_kid _ _ H _ _ _ _ _ _ Hd0 Hc) as (Hcr & n & Hn & On). split; [exact Hcr|]. destruct (decide (c = x)) as [->|Hne]; [|exists n; rewrite lookup_insert_ne by congruence; auto].
    eexists. split; [apply lookup_insert|]. assert (n = Nd a b ow) by congruence. subst n. exact On.
  - intros y n Hy. destruct (Hl _ _ Hy) as (n0 & H0 & _ & [[-> ->]| ->]); [auto|exact (ni_type _ _ H _ _ H0)].
  - intros y a0 b0 o0 Hy. destruct (Hl _ _ Hy) as (n0 & H0 & _ & [[-> E]| ->]); [|exact (ni_data _ _ H _ _ _ _ H0)]. injection E as _ -> _. destruct b, b'; try contradiction; auto.
Qed.

(** ** file contents *)
Lemma updated_type a0 a : ftype (a_mode (updated a0 a)) = ftype (a_mode a0).
Proof.
  unfold updated, ftype. cbn [a_mode]. rewrite Z.land_lor_distr_l, <- !Z.land_assoc. change (Z.land S_IFMT S_IFMT) with S_IFMT. change (Z.land (w32 (Z.lnot S_IFMT)) S_IFMT) with 0. rewrite Z.land_0_r, Z.lor_0_r. reflexivity.
Qed.
Lemma land_range a b n : 0 <= n -> 0 <= a < 2 ^ n -> 0 <= b -> 0 <= Z.land a b < 2 ^ n.
Proof.
  intros Hn Ha Hb. split; [apply Z.land_nonneg; lia|]. destruct (Z.eq_dec (Z.land a b) 0) as [->|Hz]; [lia|]. assert (0 <= Z.land a b) by (apply Z.land_nonneg; lia).
  apply Z.log2_lt_pow2; [lia|]. pose proof (Z.log2_land a b ltac:(lia) Hb). destruct (Z.eq_dec a 0) as [->|]; [rewrite Z.land_0_l in Hz; contradiction|]. pose proof (proj1 (Z.log2_lt_pow2 a n ltac:(lia)) ltac:(lia)). lia.
Qed.
Lemma lor_range a b n : 0 <= n -> 0 <= a < 2 ^ n -> 0 <= b < 2 ^ n -> 0 <= Z.lor a b < 2 ^ n.
Proof.
  intros Hn Ha Hb. assert (0 <= Z.lor a b) by (apply Z.lor_nonneg; lia). split; [assumption|]. destruct (Z.eq_dec (Z.lor a b) 0) as [->|Hz]; [lia|]. apply Z.log2_lt_pow2; [lia|]. rewrite Z.log2_lor by lia.
  assert (Hl : forall c, 0 <= c < 2 ^ n -> Z.log2 c < n \/ c = 0). { intros c Hc. destruct (Z.eq_dec c 0) as [->|]; [auto|]. left. apply Z.log2_lt_pow2; lia. }
  destruct (Hl a Ha) as [?|Ea], (Hl b Hb) as [?|Eb]; subst; try (change (Z.log2 0) with 0); [pose proof (Z.log2_nonneg a); pose proof (Z.log2_nonneg b); lia|pose proof (Z.log2_nonneg a); lia|pose proof (Z.log2_nonneg b); lia|cbn in Hz; contradiction].
Qed.
Lemma updated_ok a0 a : attrs_ok a0 -> attrs_ok a -> attrs_ok (updated a0 a).
Proof.
  intros (_ & _ & _ & _ & _ & _ & _ & Hm0) (H1 & H2 & H3 & H4 & H5 & H6 & H7 & Hm). unfold updated. repeat (split; [assumption|]). cbn [a_mode]. apply lor_range; [lia|apply land_range; [lia|exact Hm0|discriminate]|apply land_range; [lia|exact Hm|discriminate]].
Qed.
(** Specification of file contents: the writes so far, latest first. *)
Fixpoint last_byte (ws : list (Z * bytes)) (i : Z) : Z :=
  match ws with
  | [] => 0
  | (off, buf) :: ws => if (off <=? i) && (i <? off + Z.of_nat (length buf)) then nth (Z.to_nat (i - off)) buf 0 else last_byte ws i
  end.
Fixpoint file_size (ws : list (Z * bytes)) : Z :=
  match ws with [] => 0 | (off, buf) :: ws => Z.max (off + Z.of_nat (length buf)) (file_size ws) end.
Definition content (ws : list (Z * bytes)) : bytes := map (last_byte ws) (seqZ 0 (file_size ws)).
Lemma file_size_pos ws : 0 <= file_size ws.
Proof. induction ws as [|[o b] ws IH]; cbn; lia. Qed.
Lemma seqZ_map_lookup (f : Z -> Z) n (i : nat) : 0 <= n -> map f (seqZ 0 n) !! i = if decide (Z.of_nat i < n) then Some (f (Z.of_nat i)) else None.
Proof.
  intros Hn. change (map f (seqZ 0 n)) with (f <$> seqZ 0 n). rewrite list_lookup_fmap. destruct (decide (Z.of_nat i < n)) as [H|H].
  - rewrite (lookup_seqZ_lt 0 n i H). reflexivity.
  - rewrite (lookup_seqZ_ge 0 n i) by lia. reflexivity.
Qed.
Lemma content_lookup ws i : content ws !! i = if decide (Z.of_nat i < file_size ws) then Some (last_byte ws (Z.of_nat i)) else None.
Proof. apply seqZ_map_lookup, file_size_pos. Qed.
Lemma content_length ws : Z.of_nat (length (content ws)) = file_size ws.
Proof. unfold content. rewrite map_length, seqZ_length. pose proof (file_size_pos ws). lia. Qed.
Lemma repeat_get (x : Z) n i : (i < n)%nat -> repeat x n !! i = Some x.
Proof. revert i. induction n as [|n IH]; intros [|i] H; [lia..|reflexivity|]. apply IH. lia. Qed.
Lemma nth_lookup0 (l : bytes) i b : l !! i = Some b -> nth i l 0 = b.
Proof. intros H. rewrite (nth_lookup l i 0), H. reflexivity. Qed.
Lemma last_byte_beyond ws i : file_size ws <= i -> last_byte ws i = 0.
Proof.
  induction ws as [|[o b] ws IH]; [reflexivity|]. cbn [last_byte file_size]. intros H. destruct (Z.leb_spec o i), (Z.ltb_spec i (o + Z.of_nat (length b))); cbn [andb]; try (apply IH; lia). lia.
Qed.
Lemma pwrite_spec lim ws buf off : Z.of_nat (length buf) < 2 ^ 63 -> - 2 ^ 63 <= off < 2 ^ 63 -> file_size ws < 2 ^ 63 -> lim < 2 ^ 63 ->
  f_pwrite lim (content ws) buf off = Done (if off <? 0 then Err EINVAL else if (file_size ws <? off + Z.of_nat (length buf)) && (lim <? off + Z.of_nat (length buf)) then Ok None
    else Ok (Some (content ((off, buf) :: ws), if file_size ws <? off + Z.of_nat (length buf) then Some (off + Z.of_nat (length buf)) else None))).
Proof.
  intros Hb Ho Hs Hlim. unfold f_pwrite. destruct (Z.ltb_spec off 0) as [|H0]; [reflexivity|]. replace (w64 (off + Z.of_nat (length buf))) with (off + Z.of_nat (length buf)) by (symmetry; apply Z.mod_small; lia).
  rewrite content_length. destruct (_ && _) eqn:Eg; [reflexivity|].
  set (req := off + Z.of_nat (length buf)) in *. set (data := if file_size ws <? req then content ws ++ repeat 0 (Z.to_nat req - length (content ws)) else content ws).
  pose proof (content_length ws) as Hcl. pose proof (file_size_pos ws).
  assert (Hdl : Z.of_nat (length data) = Z.max req (file_size ws)). { unfold data. destruct (Z.ltb_spec (file_size ws) req); [rewrite app_length, repeat_length|]; lia. }
  assert (Hdx : forall i, data !! i = if decide (Z.of_nat i < Z.max req (file_size ws)) then Some (last_byte ws (Z.of_nat i)) else None).
  { intros i. unfold data. destruct (Z.ltb_spec (file_size ws) req) as [Hg|Hg].
    - destruct (decide (Z.of_nat i < file_size ws)) as [Hi|Hi].
      + rewrite lookup_app_l by lia. rewrite content_lookup. rewrite !decide_True by lia. reflexivity.
      + rewrite lookup_app_r by lia. destruct (decide _) as [Hi2|Hi2].
        * rewrite (last_byte_beyond ws) by lia. apply repeat_get. lia.
        * apply lookup_ge_None. rewrite repeat_length. lia.
    - rewrite content_lookup. destruct (decide _), (decide _); try lia; reflexivity. }
  rewrite (proj2 (Z.ltb_ge (Z.of_nat (length data)) req)) by lia. f_equal. f_equal. f_equal. f_equal.
  apply list_eq. intros i. rewrite content_lookup. cbn [file_size last_byte]. fold req.
  destruct (Z.leb_spec off (Z.of_nat i)) as [Hi|Hi]; cbn [andb].
  - rewrite lookup_app_r by (rewrite firstn_length; lia). rewrite firstn_length. replace (Init.Nat.min (Z.to_nat off) (length data)) with (Z.to_nat off) by lia.
    destruct (Z.ltb_spec (Z.of_nat i) req) as [Hr|Hr].
    + rewrite lookup_app_l by lia. rewrite decide_True by lia. destruct (lookup_lt_is_Some_2 buf (i - Z.to_nat off)) as [b Hbk]; [lia|]. rewrite Hbk. f_equal. symmetry. replace (Z.to_nat (Z.of_nat i - off)) with (i - Z.to_nat off)%nat by lia. apply nth_lookup0. exact Hbk.
    + rewrite lookup_app_r by lia. rewrite lookup_drop. replace (Z.to_nat req + (i - Z.to_nat off - length buf))%nat with i by lia. apply Hdx.
  - rewrite lookup_app_l by (rewrite firstn_length; lia). rewrite lookup_take by lia. apply Hdx.
Qed.
Lemma pread_spec ws count off : 0 <= count < 2 ^ 63 -> - 2 ^ 63 <= off < 2 ^ 63 -> file_size ws < 2 ^ 63 ->
  f_pread (content ws) count off = Done (if off <? 0 then Err EINVAL else Ok (map (last_byte ws) (seqZ off (Z.max 0 (Z.min count (file_size ws - off)))))).
Proof.
  intros Hc Ho Hs. unfold f_pread. destruct (Z.ltb_spec off 0) as [|H0]; [reflexivity|]. rewrite content_length. destruct (Z.leb_spec (file_size ws) off) as [Hge|Hlt].
  - replace (Z.max 0 (Z.min count (file_size ws - off))) with 0 by lia. reflexivity.
  - replace (w64 (off + count)) with (off + count) by (symmetry; apply Z.mod_small; lia).
    set (c := if file_size ws <? off + count then w64 (count - w64 (off + count - file_size ws)) else count).
    assert (Ec : c = Z.min count (file_size ws - off)). { unfold c. destruct (Z.ltb_spec (file_size ws) (off + count)); [|lia]. replace (w64 (off + count - file_size ws)) with (off + count - file_size ws) by (symmetry; apply Z.mod_small; lia). replace (w64 (count - (off + count - file_size ws))) with (file_size ws - off) by (symmetry; unfold w64; rewrite Z.mod_small; lia). lia. }
    rewrite (proj2 (Z.ltb_ge _ _)) by lia. f_equal. f_equal. replace (Z.max 0 (Z.min count (file_size ws - off))) with c by lia. pose proof (content_length ws) as Hcl.
    apply list_eq. intros i. change (map (last_byte ws) (seqZ off c)) with (last_byte ws <$> seqZ off c). rewrite list_lookup_fmap. destruct (decide (Z.of_nat i < c)) as [Hi|Hi].
    + rewrite lookup_take by lia. rewrite lookup_drop, content_lookup. rewrite decide_True by lia. rewrite (lookup_seqZ_lt off c i Hi). cbn. f_equal. f_equal. lia.
    + rewrite (lookup_seqZ_ge off c i) by lia. cbn. apply lookup_ge_None. rewrite firstn_length. lia.
Qed.

(** ** find returns a live node or an error *)
Lemma to_slash_length p a b : to_slash p = (a, b) -> (length b <= length p)%nat /\ p = a ++ b.
Proof.
  revert a b. induction p as [|c p IH]; intros a b E; cbn [to_slash] in E; [injection E as <- <-; auto|]. destruct (c =? 47); [injection E as <- <-; auto|]. destruct (to_slash p) as [a' b'] eqn:Ep. injection E as <- <-. destruct (IH _ _ eq_refl) as [H1 ->]. split; [cbn [length app] in *; lia|reflexivity].
Qed.
Lemma find_total next ns f : NInv next ns -> forall id path, ns !! id <> None -> (length path < f)%nat ->
  exists r, find f ns id path = Done r /\ forall x, r = Ok x -> exists n, ns !! x = Some n.
Proof.
  intros H. induction f as [|f IH]; intros id path Hid Hf; [lia|]. cbn [find]. destruct (ns !! id) as [[a [d|d|kids] ow]|] eqn:En; [| | |contradiction].
  - eexists. split; [reflexivity|discriminate].
  - eexists. split; [reflexivity|discriminate].
  - destruct path as [|c path]; [eexists; split; [reflexivity|discriminate]|]. destruct (negb (c =? 47)); [eexists; split; [reflexivity|discriminate]|].
    destruct path as [|c1 path]; [eexists; split; [reflexivity|]; intros x E; injection E as <-; eauto|]. destruct (to_slash (c1 :: path)) as [child rem] eqn:Et. destruct (to_slash_length _ _ _ Et) as [Hl _].
    assert (Hk : exists r, match kids !! child with None => Done (Err ENOENT) | Some c => match rem with [] => Done (Ok c) | _ => find f ns c rem end end = Done r /\ forall x, r = Ok x -> exists n, ns !! x = Some n).
    { destruct (kids !! child) as [k|] eqn:Ek; [|eexists; split; [reflexivity|discriminate]]. destruct (ni_kid _ _ H _ _ _ _ _ _ En Ek) as (_ & n & Hn & _). destruct rem as [|r0 rem]; [eexists; split; [reflexivity|]; intros x E; injection E as <-; eauto|]. apply IH; [congruence|]. cbn [length] in *. lia. }
    destruct child; [destruct rem; [exact Hk|eexists; split; [reflexivity|discriminate]]|exact Hk].
Qed.
Lemma mfind_total m path : MInv m -> exists r, mfind m path = Done r /\ forall x, r = Ok x -> exists n, m_nodes m !! x = Some n.
Proof. intros H. destruct (ni_root _ _ (mi_nodes _ H)) as (a & k & o & Hr). apply (find_total (m_next m)); [exact (mi_nodes _ H)|congruence|lia]. Qed.
Lemma with_node_total m path fail k r m' : MInv m -> with_node m path fail k = Done (r, m') ->
  (exists e, r = fail e /\ m' = m) \/ exists id n, m_conn m = true /\ mfind m path = Done (Ok id) /\ m_nodes m !! id = Some n /\ k id n = Done (r, m').
Proof.
  intros H E. unfold with_node in E. destruct (m_conn m); cbn [negb] in E; [|injection E as <- <-; eauto]. destruct (mfind m path) as [[id|e]| | |]; cbn [obind] in E; try discriminate; [|injection E as <- <-; eauto].
  destruct (m_nodes m !! id) as [n|] eqn:En; [|discriminate]. right. eauto 10.
Qed.

(** ** writes of a history *)
Definition wr (id : Z) (e : mev) : option (Z * bytes) :=
  match e_op e, e_res e with
  | MPwrite h buf off, MCount (Ok _) => if decide (m_fh (e_mem e) !! h = Some id) then Some (off, buf) else None
  | _, _ => None
  end.
(** the successful writes to the file [id], latest first *)
Definition writes (tr : list mev) (id : Z) : list (Z * bytes) := rev (omap (wr id) tr).
Definition touches (id : Z) (e : mev) : Prop := match e_op e with MUpdateAttr x _ => x = id | _ => False end.
Lemma writes_snoc tr e id : writes (tr ++ [e]) id = match wr id e with Some w => w :: writes tr id | None => writes tr id end.
Proof. unfold writes. rewrite omap_app, rev_app_distr. cbn. destruct (wr id e); reflexivity. Qed.
Record CInv (m : mem) (tr : list mev) : Prop := {
  ci_inv : MInv m;
  ci_data : forall id a d ow, m_nodes m !! id = Some (Nd a (BFile d) ow) -> d = content (writes tr id);
  ci_size : forall id a d ow, m_nodes m !! id = Some (Nd a (BFile d) ow) -> (forall e, e ∈ tr -> ~ touches id e) -> a_size a = file_size (writes tr id);
  ci_fresh : forall id, m_next m <= id -> writes tr id = [] }.
Lemma mem0_inv : MInv mem0.
Proof.
  unfold mem0. split; cbn [m_nodes m_next m_fh m_dh m_hnext].
  - split; try (intros x n E; apply lookup_singleton_Some in E as [<- <-]; cbn [nd_owner nd_body nd_attr is_body]).
    + eexists _, _, _. apply lookup_singleton.
    + unfold ROOT. lia.
    + congruence.
    + intros d a kids ow nm c E Hc. apply lookup_singleton_Some in E as [_ E]. injection E as _ <- _. rewrite lookup_empty in Hc. discriminate.
    + split; [reflexivity|]. repeat split; try (vm_compute; reflexivity); vm_compute; discriminate.
    + intros x a b ow E. apply lookup_singleton_Some in E as [_ E]. injection E as _ <- _. exact I.
  - intros h x E. rewrite lookup_empty in E. discriminate.
  - intros h _. rewrite !lookup_empty. auto.
  - intros h x E. rewrite lookup_empty in E. discriminate.
Qed.
(** handles stay good when the nodes change but keep their kind *)
Definition same_kind (ns ns' : gmap Z nd) : Prop := forall x n', ns' !! x = Some n' -> forall n, ns !! x = Some n ->
  match nd_body n, nd_body n' with BFile _, BFile _ | BLink _, BLink _ | BDir _, BDir _ => True | _, _ => False end.
Lemma handles_keep m ns next : MInv m -> NInv next ns -> m_next m <= next -> same_kind (m_nodes m) ns -> (forall x n, ns !! x = Some n -> x < m_next m -> m_nodes m !! x <> None) -> forall c, MInv (Mem ns next c (m_fh m) (m_dh m) (m_hnext m)).
Proof.
  intros H HN Hle Hk Hold c. split; cbn; [exact HN| |exact (mi_hnext _ H)|].
  - intros h x Hx. destruct (mi_fh _ H _ _ Hx) as [Hr Hf]. split; [lia|]. intros n Hn. pose proof (Hold _ _ Hn ltac:(lia)) as Ho. destruct (m_nodes m !! x) as [n0|] eqn:E0; [|contradiction]. destruct (Hf _ eq_refl) as [d Hd]. specialize (Hk _ _ Hn _ E0). rewrite Hd in Hk. destruct (nd_body n); try contradiction. eauto.
  - intros h dh Hx. destruct (mi_dh _ H _ _ Hx) as [Hr Hf]. split; [lia|]. intros n Hn. pose proof (Hold _ _ Hn ltac:(lia)) as Ho. destruct (m_nodes m !! dh_node dh) as [n0|] eqn:E0; [|contradiction]. destruct (Hf _ eq_refl) as [d Hd]. specialize (Hk _ _ Hn _ E0). rewrite Hd in Hk. destruct (nd_body n); try contradiction. eauto.
Qed.
Lemma same_kind_refl ns : same_kind ns ns.
Proof. intros x n' H n H'. assert (n = n') by congruence. subst. destruct (nd_body n'); exact I. Qed.
Lemma ci_same m tr o r m' : CInv m tr -> MInv m' -> m_nodes m' = m_nodes m -> m_next m <= m_next m' -> (forall id, wr id (Mev m o r) = None) -> CInv m' (tr ++ [Mev m o r]).
Proof.
  intros [H1 H2 H3 H4] H' En Ex Hw. split; [exact H'|..].
  - intros id a d ow Hn. rewrite writes_snoc, Hw. rewrite En in Hn. eauto.
  - intros id a d ow Hn Ht. rewrite writes_snoc, Hw. rewrite En in Hn. eapply H3; [exact Hn|]. intros e He. apply Ht. set_solver.
  - intros id Hid. rewrite writes_snoc, Hw. apply H4. lia.
Qed.
Lemma minv_eta m : MInv (Mem (m_nodes m) (m_next m) (m_conn m) (m_fh m) (m_dh m) (m_hnext m)) -> MInv m.
Proof. destruct m. exact (fun H => H). Qed.
Lemma mstep_inv lim ord m tr o r m' : lim < 2 ^ 63 -> CInv m tr -> mlegal o -> mstep lim ord m o = Done (r, m') -> CInv m' (tr ++ [Mev m o r]).
Proof.
  intros Hlim HC Hl E. pose proof (ci_inv _ _ HC) as H. pose proof (mi_nodes _ H) as HN. destruct (ni_root _ _ HN) as (ra & rk & ro & Hroot). pose proof (proj2 (ni_range _ _ HN _ _ Hroot)) as Hnext. unfold ROOT in Hnext.
  destruct o as [dir name k|dir name|x a|c|path|path|path|path|h|h count off|h buf off|h]; cbn [mstep] in E.
  - destruct (m_nodes m !! dir) as [[a [d|d|kids] ow]|] eqn:Ed; try discriminate. injection E as <- <-. destruct (kids !! name) as [old|] eqn:Ek.
    + apply ci_same; auto; cbn [m_nodes m_next]; [|lia]. apply handles_keep; [exact H| |lia|apply same_kind_refl|congruence]. destruct HN as [N1 N2 N3 N4 N5 N6]. split; auto. intros y n Hy. specialize (N2 _ _ Hy). lia.
    + pose proof (emplace_inv (m_next m) _ _ _ _ _ _ k HN Ed Ek Hnext ltac:(destruct k; auto)) as HN'.
      assert (Hl2 : forall y n, <[m_next m := new_node k (dir, name)]> (<[dir := Nd a (BDir (<[name := m_next m]> kids)) ow]> (m_nodes m)) !! y = Some n -> y = m_next m /\ n = new_node k (dir, name) \/ y = dir /\ n = Nd a (BDir (<[name := m_next m]> kids)) ow \/ y < m_next m /\ m_nodes m !! y = Some n).
      { intros y n Hy. destruct (decide (y = m_next m)) as [->|Hne]; [rewrite lookup_insert in Hy; injection Hy as <-; auto|]. rewrite lookup_insert_ne in Hy by congruence. destruct (decide (y = dir)) as [->|Hyd]; [rewrite lookup_insert in Hy; injection Hy as <-; auto|]. rewrite lookup_insert_ne in Hy by congruence. destruct (ni_range _ _ HN _ _ Hy). auto. }
      split.
      * apply handles_keep; [exact H|exact HN'|lia| |].
        -- intros y n' Hy n Hn. destruct (Hl2 _ _ Hy) as [[-> ->]|[[-> ->]|[_ Hy0]]]; [destruct (ni_range _ _ HN _ _ Hn); lia|assert (n = Nd a (BDir kids) ow) by congruence; subst n; exact I|exact (same_kind_refl _ _ _ Hy0 _ Hn)].
        -- intros y n Hy Hlt. destruct (Hl2 _ _ Hy) as [[-> ->]|[[-> ->]|[_ Hy0]]]; [lia|congruence|congruence].
      * intros id a' d ow' Hn. cbn [m_nodes] in Hn. rewrite writes_snoc. cbn. destruct (Hl2 _ _ Hn) as [[-> E]|[[-> E]|[_ Hy0]]]; [|discriminate E|exact (ci_data _ _ HC _ _ _ _ Hy0)]. rewrite (ci_fresh _ _ HC) by lia. destruct k; try discriminate E. injection E as _ -> _. reflexivity.
      * intros id a' d ow' Hn Ht. cbn [m_nodes] in Hn. rewrite writes_snoc. cbn. destruct (Hl2 _ _ Hn) as [[-> E]|[[-> E]|[_ Hy0]]]; [|discriminate E|eapply (ci_size _ _ HC); [exact Hy0|]; intros e He; apply Ht; set_solver]. rewrite (ci_fresh _ _ HC) by lia. destruct k; try discriminate E. injection E as -> _ _. reflexivity.
      * intros id Hid. cbn [m_next] in Hid. rewrite writes_snoc. cbn. apply (ci_fresh _ _ HC). lia.
  - destruct (m_nodes m !! dir) as [[a [d|d|kids] ow]|] eqn:Ed; try discriminate. destruct (kids !! name) as [k|] eqn:Ek; injection E as <- <-; [|apply ci_same; auto; lia].
    pose proof (remove_inv (m_next m) _ _ _ _ _ _ k HN Ed Ek) as HN'.
    assert (Hl2 : forall y n, destroy (<[dir := Nd a (BDir (delete name kids)) ow]> (m_nodes m)) k !! y = Some n -> y = dir /\ n = Nd a (BDir (delete name kids)) ow \/ m_nodes m !! y = Some n).
    { intros y n Hy. apply destroy_lookup in Hy as [Hy _]. destruct (decide (y = dir)) as [->|Hyd]; [rewrite lookup_insert in Hy; injection Hy as <-; auto|]. rewrite lookup_insert_ne in Hy by congruence. auto. }
    split; unfold set_nodes; cbn [m_nodes m_next].
    + apply handles_keep; [exact H|exact HN'|lia| |].
      * intros y n' Hy n Hn. destruct (Hl2 _ _ Hy) as [[-> ->]|Hy0]; [assert (n = Nd a (BDir kids) ow) by congruence; subst n; exact I|exact (same_kind_refl _ _ _ Hy0 _ Hn)].
      * intros y n Hy Hlt. destruct (Hl2 _ _ Hy) as [[-> ->]|Hy0]; congruence.
    + intros id a' d ow' Hn. rewrite writes_snoc. cbn. destruct (Hl2 _ _ Hn) as [[-> E]|Hy0]; [discriminate E|exact (ci_data _ _ HC _ _ _ _ Hy0)].
    + intros id a' d ow' Hn Ht. rewrite writes_snoc. cbn. destruct (Hl2 _ _ Hn) as [[-> E]|Hy0]; [discriminate E|]. eapply (ci_size _ _ HC); [exact Hy0|]. intros e He. apply Ht. set_solver.
    + intros id Hid. rewrite writes_snoc. cbn. apply (ci_fresh _ _ HC). exact Hid.
  - destruct (m_nodes m !! x) as [[a0 b ow]|] eqn:Ex; try discriminate. injection E as <- <-. destruct (ni_type _ _ HN _ _ Ex) as [Hty Hok]. cbn [nd_body nd_attr] in Hty, Hok.
    assert (HN' : NInv (m_next m) (<[x := Nd (updated a0 a) b ow]> (m_nodes m))).
    { eapply set_inv; [exact HN|exact Ex| |apply updated_ok; assumption|]; [destruct b; cbn [is_body] in *; rewrite updated_type; exact Hty|]. pose proof (ni_data _ _ HN _ _ _ _ Ex). destruct b; auto. }
    assert (Hl2 : forall y n, <[x := Nd (updated a0 a) b ow]> (m_nodes m) !! y = Some n -> y = x /\ n = Nd (updated a0 a) b ow \/ y <> x /\ m_nodes m !! y = Some n).
    { intros y n Hy. destruct (decide (y = x)) as [->|Hyd]; [rewrite lookup_insert in Hy; injection Hy as <-; auto|]. rewrite lookup_insert_ne in Hy by congruence. auto. }
    split; unfold set_nodes; cbn [m_nodes m_next].
    + apply handles_keep; [exact H|exact HN'|lia| |].
      * intros y n' Hy n Hn. destruct (Hl2 _ _ Hy) as [[-> ->]|[_ Hy0]]; [assert (n = Nd a0 b ow) by congruence; subst n; destruct b; exact I|exact (same_kind_refl _ _ _ Hy0 _ Hn)].
      * intros y n Hy Hlt. destruct (Hl2 _ _ Hy) as [[-> ->]|[_ Hy0]]; congruence.
    + intros id a' d ow' Hn. rewrite writes_snoc. cbn. destruct (Hl2 _ _ Hn) as [[-> E]|[_ Hy0]]; [injection E as _ <- _; exact (ci_data _ _ HC _ _ _ _ Ex)|exact (ci_data _ _ HC _ _ _ _ Hy0)].
    + intros id a' d ow' Hn Ht. rewrite writes_snoc. cbn. destruct (Hl2 _ _ Hn) as [[-> E]|[Hne Hy0]]; [exfalso; apply (Ht (Mev m (MUpdateAttr x a) MUnit)); [set_solver|reflexivity]|]. eapply (ci_size _ _ HC); [exact Hy0|]. intros e He. apply Ht. set_solver.
    + intros id Hid. rewrite writes_snoc. cbn. apply (ci_fresh _ _ HC). exact Hid.
  - injection E as <- <-. apply ci_same; auto; cbn [m_nodes m_next]; [|lia]. apply handles_keep; [exact H|exact HN|lia|apply same_kind_refl|congruence].
  - apply with_node_total in E as [(e & -> & ->)|(id & n & _ & _ & Hn & E)]; [apply ci_same; auto; lia| |exact H]. injection E as <- <-. apply ci_same; auto; lia.
  - apply with_node_total in E as [(e & -> & ->)|(id & n & _ & _ & Hn & E)]; [apply ci_same; auto; lia| |exact H]. injection E as <- <-. apply ci_same; auto; lia.
  - apply with_node_total in E as [(e & -> & ->)|(id & n & _ & _ & Hn & E)]; [apply ci_same; auto; lia| |exact H]. destruct (nd_body n) as [d|d|d] eqn:Eb; injection E as <- <-; try (apply ci_same; auto; lia).
    apply ci_same; auto; cbn [m_nodes m_next]; [|lia]. split; cbn [m_nodes m_next m_fh m_dh m_hnext]; [exact HN| | |exact (mi_dh _ H)].
    + intros h x Hx. destruct (decide (h = m_hnext m)) as [->|Hne]; [rewrite lookup_insert in Hx; injection Hx as <-; split; [exact (ni_range _ _ HN _ _ Hn)|]; intros n' Hn'; assert (n' = n) by congruence; subst n'; eauto|]. rewrite lookup_insert_ne in Hx by congruence. exact (mi_fh _ H _ _ Hx).
    + intros h Hh. rewrite lookup_insert_ne by lia. apply (mi_hnext _ H). lia.
  - apply with_node_total in E as [(e & -> & ->)|(id & n & _ & _ & Hn & E)]; [apply ci_same; auto; lia| |exact H]. destruct (nd_body n) as [d|d|d] eqn:Eb; injection E as <- <-; try (apply ci_same; auto; lia).
    apply ci_same; auto; cbn [m_nodes m_next]; [|lia]. split; cbn [m_nodes m_next m_fh m_dh m_hnext]; [exact HN|exact (mi_fh _ H)| |].
    + intros h Hh. rewrite lookup_insert_ne by lia. apply (mi_hnext _ H). lia.
    + intros h x Hx. destruct (decide (h = m_hnext m)) as [->|Hne]; [rewrite lookup_insert in Hx; injection Hx as <-; cbn [dh_node]; split; [exact (ni_range _ _ HN _ _ Hn)|]; intros n' Hn'; assert (n' = n) by congruence; subst n'; eauto|]. rewrite lookup_insert_ne in Hx by congruence. exact (mi_dh _ H _ _ Hx).
  - destruct (m_fh m !! h) as [x|]; [|discriminate]. destruct (m_nodes m !! x); [|discriminate]. injection E as <- <-. apply ci_same; auto; lia.
  - destruct (m_fh m !! h) as [x|]; [|discriminate]. destruct (m_nodes m !! x) as [[a [d|d|d] ow]|]; try discriminate. destruct (f_pread d count off) as [rr| | |]; try discriminate. injection E as <- <-. apply ci_same; auto; lia.
  - destruct Hl as [Hb Ho]. destruct (m_fh m !! h) as [x|] eqn:Eh; [|discriminate]. destruct (m_nodes m !! x) as [[a [d|d|d] ow]|] eqn:Ex; try discriminate.
    pose proof (ci_data _ _ HC _ _ _ _ Ex) as ->. pose proof (ni_data _ _ HN _ _ _ _ Ex) as Hlen. cbn in Hlen. rewrite content_length in Hlen.
    rewrite pwrite_spec in E by assumption. cbn [obind] in E. destruct (Z.ltb_spec off 0) as [|H0]; [injection E as <- <-; apply ci_same; auto; lia|].
    set (req := off + Z.of_nat (length buf)) in *. set (ws := writes tr x) in *. destruct ((file_size ws <? req) && (lim <? req)) eqn:Eg; [injection E as <- <-; apply ci_same; auto; lia|]. injection E as <- <-.
    set (a' := match (if file_size ws <? req then Some req else None) with Some s => _ | None => a end). destruct (ni_type _ _ HN _ _ Ex) as [Hty Hok]. cbn [nd_body nd_attr is_body] in Hty, Hok.
    assert (Hreq : 0 <= req < 2 ^ 64) by lia.
    assert (Ha' : a_mode a' = a_mode a /\ attrs_ok a'). { unfold a'. destruct (file_size ws <? req); [|auto]. split; [reflexivity|]. destruct Hok as (K1 & K2 & K3 & K4 & K5 & K6 & K7 & K8). split; [exact Hreq|]. auto 10. }
    destruct Ha' as [Hm' Ha'].
    assert (Hnl : Z.of_nat (length (content ((off, buf) :: ws))) < 2 ^ 63). { rewrite content_length. cbn [file_size]. fold req. destruct (Z.ltb_spec (file_size ws) req); cbn [andb] in Eg; [apply Z.ltb_ge in Eg|]; lia. }
    assert (HN' : NInv (m_next m) (<[x := Nd a' (BFile (content ((off, buf) :: ws))) ow]> (m_nodes m))) by (eapply set_inv; [exact HN|exact Ex|cbn [is_body]; rewrite Hm'; exact Hty|exact Ha'|exact Hnl]).
    assert (Hl2 : forall y n, <[x := Nd a' (BFile (content ((off, buf) :: ws))) ow]> (m_nodes m) !! y = Some n -> y = x /\ n = Nd a' (BFile (content ((off, buf) :: ws))) ow \/ y <> x /\ m_nodes m !! y = Some n).
    { intros y n Hy. destruct (decide (y = x)) as [->|Hyd]; [rewrite lookup_insert in Hy; injection Hy as <-; auto|]. rewrite lookup_insert_ne in Hy by congruence. auto. }
    assert (Hw : forall id, wr id (Mev m (MPwrite h buf off) (MCount (Ok (Z.of_nat (length buf))))) = if decide (id = x) then Some (off, buf) else None).
    { intros id. unfold wr. cbn [e_op e_res e_mem]. rewrite Eh. destruct (decide (Some x = Some id)), (decide (id = x)); congruence. }
    split; unfold set_nodes; cbn [m_nodes m_next].
    + apply handles_keep; [exact H|exact HN'|lia| |].
      * intros y n' Hy n Hn. destruct (Hl2 _ _ Hy) as [[-> ->]|[_ Hy0]]; [assert (n = Nd a (BFile (content ws)) ow) by congruence; subst n; exact I|exact (same_kind_refl _ _ _ Hy0 _ Hn)].
      * intros y n Hy Hlt. destruct (Hl2 _ _ Hy) as [[-> ->]|[_ Hy0]]; congruence.
    + intros id a2 d ow' Hn. rewrite writes_snoc, Hw. destruct (Hl2 _ _ Hn) as [[-> E]|[Hne Hy0]]; [rewrite decide_True by reflexivity; injection E as _ -> _; reflexivity|rewrite decide_False by assumption; exact (ci_data _ _ HC _ _ _ _ Hy0)].
    + intros id a2 d ow' Hn Ht. rewrite writes_snoc, Hw. destruct (Hl2 _ _ Hn) as [[-> E]|[Hne Hy0]].
      * rewrite decide_True by reflexivity. injection E as -> _ _. cbn [file_size]. fold req ws. assert (Hsz : a_size a = file_size ws) by (eapply (ci_size _ _ HC); [exact Ex|]; intros e He; apply Ht; set_solver). unfold a'. destruct (Z.ltb_spec (file_size ws) req); cbn [a_size]; lia.
      * rewrite decide_False by assumption. eapply (ci_size _ _ HC); [exact Hy0|]. intros e He. apply Ht. set_solver.
    + intros id Hid. rewrite writes_snoc, Hw. destruct (ni_range _ _ HN _ _ Ex). rewrite decide_False by lia. apply (ci_fresh _ _ HC). exact Hid.
  - destruct (m_dh m !! h) as [[x st rest kids]|] eqn:Eh; [|discriminate].
    assert (Hset : forall st' rest', MInv (Mem (m_nodes m) (m_next m) (m_conn m) (m_fh m) (<[h := Dirh x st' rest' kids]> (m_dh m)) (m_hnext m))).
    { intros st' rest'. split; cbn [m_nodes m_next m_fh m_dh m_hnext]; [exact HN|exact (mi_fh _ H)| |].
      - intros h' Hh'. destruct (mi_hnext _ H _ Hh') as [? Hd]. rewrite lookup_insert_ne; [auto|]. intros ->. congruence.
      - intros h' dh Hd. destruct (decide (h' = h)) as [->|Hne]; [rewrite lookup_insert in Hd; injection Hd as <-; exact (mi_dh _ H _ _ Eh)|]. rewrite lookup_insert_ne in Hd by congruence. exact (mi_dh _ H _ _ Hd). }
    destruct st; [injection E as <- <-; apply ci_same; auto; cbn [m_nodes m_next]; lia..|].
    destruct (m_nodes m !! x) as [[a [d|d|kids'] ow]|]; try discriminate. destruct (decide (kids' = kids)); [|discriminate]. destruct rest; injection E as <- <-; apply ci_same; auto; cbn [m_nodes m_next]; lia.
Qed.
Lemma mhist_inv lim ord m tr : lim < 2 ^ 63 -> mhist lim ord m tr -> CInv m tr.
Proof.
  intros Hlim. induction 1 as [|m tr o r m' _ IH Hl E]; [|eapply mstep_inv; eassumption]. split; [exact mem0_inv|..]; cbn [m_nodes mem0].
  - intros id a d ow E. apply lookup_singleton_Some in E as [_ E]. discriminate E.
  - intros id a d ow E. apply lookup_singleton_Some in E as [_ E]. discriminate E.
  - reflexivity.
Qed.
