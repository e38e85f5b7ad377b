(** Properties C43 and C44: the in-memory backend. *)
From Verif Require Export InMemInv CacheSpec.

(** ** C43: file contents *)
(** Reading from a handle whose file still exists: the bytes last written at each offset, zeros where
    nothing was written, and short exactly when the file ends. *)
Theorem C43_pread : forall lim ord m tr h id n count off, lim < 2 ^ 63 -> mhist lim ord m tr -> m_fh m !! h = Some id -> m_nodes m !! id = Some n -> mlegal (MPread h count off) ->
  let ws := writes tr id in
  mstep lim ord m (MPread h count off) = Done (MBytes (if off <? 0 then Err EINVAL else Ok (map (last_byte ws) (seqZ off (Z.max 0 (Z.min count (file_size ws - off)))))), m).
Proof.
  intros lim ord m tr h id n count off Hlim H Hh Hn [Hc Ho] ws. pose proof (mhist_inv _ _ _ _ Hlim H) as HC. cbn [mstep]. rewrite Hh, Hn. destruct (mi_fh _ (ci_inv _ _ HC) _ _ Hh) as [_ Hf]. destruct (Hf _ Hn) as [d Hd]. destruct n as [a b ow]. cbn in Hd. subst b.
  pose proof (ci_data _ _ HC _ _ _ _ Hn) as ->. pose proof (ni_data _ _ (mi_nodes _ (ci_inv _ _ HC)) _ _ _ _ Hn) as Hl. cbn in Hl. rewrite content_length in Hl. rewrite pread_spec by assumption. reflexivity.
Qed.
Print Assumptions C43_pread.
(** Writing: all of it, or EINVAL for a negative offset, or an exception if the file would
    have to grow beyond what memory holds; in both other cases nothing changes. *)
Theorem C43_pwrite : forall lim ord m tr h id n buf off, lim < 2 ^ 63 -> mhist lim ord m tr -> m_fh m !! h = Some id -> m_nodes m !! id = Some n -> mlegal (MPwrite h buf off) ->
  exists r m', mstep lim ord m (MPwrite h buf off) = Done (r, m') /\
    (off < 0 /\ r = MCount (Err EINVAL) /\ m' = m \/
     0 <= off /\ r = MCount (Ok (Z.of_nat (length buf))) /\ writes (tr ++ [Mev m (MPwrite h buf off) r]) id = (off, buf) :: writes tr id \/
     0 <= off /\ r = MThrown /\ m' = m /\ lim < off + Z.of_nat (length buf) /\ file_size (writes tr id) < off + Z.of_nat (length buf)).
Proof.
  intros lim ord m tr h id n buf off Hlim H Hh Hn [Hb Ho]. pose proof (mhist_inv _ _ _ _ Hlim H) as HC. cbn [mstep]. rewrite Hh, Hn. destruct (mi_fh _ (ci_inv _ _ HC) _ _ Hh) as [_ Hf]. destruct (Hf _ Hn) as [d Hd]. destruct n as [a b ow]. cbn in Hd. subst b.
  pose proof (ci_data _ _ HC _ _ _ _ Hn) as ->. pose proof (ni_data _ _ (mi_nodes _ (ci_inv _ _ HC)) _ _ _ _ Hn) as Hl. cbn in Hl. rewrite content_length in Hl. rewrite pwrite_spec by assumption. cbn [obind].
  destruct (Z.ltb_spec off 0) as [|H0]; [eauto 10|]. destruct (_ && _) eqn:Eg.
  - apply andb_true_iff in Eg as [E1 E2]. apply Z.ltb_lt in E1, E2. eexists _, _. split; [reflexivity|]. right. right. auto.
  - eexists _, _. split; [reflexivity|]. right. left. split; [exact H0|]. split; [reflexivity|]. rewrite writes_snoc. unfold wr. cbn [e_op e_res e_mem]. rewrite Hh, decide_True by reflexivity. reflexivity.
Qed.
Print Assumptions C43_pwrite.
(** What these say together, without the list of writes: after a successful write, a read of the same
    range through any handle of the file returns the buffer; bytes outside keep their values. *)
Theorem C43_read_back : forall lim ord m tr h h2 id n buf off m', lim < 2 ^ 63 -> mhist lim ord m tr -> m_fh m !! h = Some id -> m_fh m !! h2 = Some id -> m_nodes m !! id = Some n ->
  mlegal (MPwrite h buf off) -> mstep lim ord m (MPwrite h buf off) = Done (MCount (Ok (Z.of_nat (length buf))), m') ->
  mstep lim ord m' (MPread h2 (Z.of_nat (length buf)) off) = Done (MBytes (Ok buf), m') /\
  forall i b, ~ (off <= i < off + Z.of_nat (length buf)) -> 0 <= i < 2 ^ 63 -> mstep lim ord m (MPread h2 1 i) = Done (MBytes (Ok [b]), m) -> mstep lim ord m' (MPread h2 1 i) = Done (MBytes (Ok [b]), m').
Proof.
  intros lim ord m tr h h2 id n buf off m' Hlim H Hh Hh2 Hn Hl E.
  assert (H' : mhist lim ord m' (tr ++ [Mev m (MPwrite h buf off) (MCount (Ok (Z.of_nat (length buf))))])) by (econstructor; eassumption).
  destruct (C43_pwrite lim ord m tr h id n buf off Hlim H Hh Hn Hl) as (r & m2 & E2 & Hc). rewrite E in E2. injection E2 as <- <-. destruct Hc as [(_ & Hc & _)|[(H0 & _ & Hw)|(_ & Hc & _)]]; try discriminate Hc.
  assert (Hn' : exists n', m_nodes m' !! id = Some n' /\ m_fh m' = m_fh m).
  { cbn [mstep] in E. rewrite Hh, Hn in E. destruct n as [a [d|d|d] ow]; try discriminate. destruct (f_pwrite lim d buf off) as [[[[d' s]|]|e]| | |]; cbn [obind] in E; try discriminate. injection E as <-. eexists. split; [apply lookup_insert|reflexivity]. }
  destruct Hn' as (n' & Hn' & Ef). destruct Hl as [Hb Ho]. split.
  - rewrite (C43_pread lim ord m' _ h2 id n' (Z.of_nat (length buf)) off Hlim H') by (rewrite ?Ef; try assumption; split; (lia || assumption)). rewrite Hw. rewrite (proj2 (Z.ltb_ge off 0)) by exact H0. cbn [file_size].
    replace (Z.max 0 (Z.min _ _)) with (Z.of_nat (length buf)) by lia. match goal with |- Done (MBytes (Ok ?x), _) = _ => assert (Eb : x = buf); [|rewrite Eb; reflexivity] end.
    apply list_eq. intros i. change (map ?f ?l) with (f <$> l). rewrite list_lookup_fmap. destruct (decide (i < length buf)%nat) as [Hi|Hi].
    + rewrite lookup_seqZ_lt by lia. cbn [fmap option_fmap option_map last_byte]. rewrite (proj2 (Z.leb_le _ _)), (proj2 (Z.ltb_lt _ _)) by lia. cbn [andb]. replace (Z.to_nat (off + Z.of_nat i - off)) with i by lia. destruct (lookup_lt_is_Some_2 buf i Hi) as [b Hbi]. rewrite Hbi. f_equal. apply nth_lookup0. exact Hbi.
    + rewrite lookup_seqZ_ge by lia. cbn. symmetry. apply lookup_ge_None. lia.
  - intros i b Hi Hi0 Er. rewrite (C43_pread lim ord m tr h2 id n 1 i Hlim H Hh2 Hn) in Er by (split; lia). rewrite (C43_pread lim ord m' _ h2 id n' 1 i Hlim H') by (rewrite ?Ef; try assumption; split; lia). rewrite Hw.
    rewrite (proj2 (Z.ltb_ge i 0)) in * by lia. destruct (Z_lt_le_dec i (file_size (writes tr id))) as [Hlt|Hge].
    + replace (Z.max 0 (Z.min 1 (file_size (writes tr id) - i))) with 1 in Er by lia. cbn [file_size]. replace (Z.max 0 (Z.min 1 _)) with 1 by lia. rewrite seqZ_cons in * by lia. cbn [map Z.pred] in *. injection Er as Eb. rewrite seqZ_nil by lia. cbn [map last_byte]. rewrite <- Eb.
      destruct (Z.leb_spec off i), (Z.ltb_spec i (off + Z.of_nat (length buf))); cbn [andb]; try reflexivity. lia.
    + replace (Z.max 0 (Z.min 1 (file_size (writes tr id) - i))) with 0 in Er by lia. cbn in Er. discriminate Er.
Qed.
Print Assumptions C43_read_back.
(** The size that fstat and lstat report is the end of the furthest write, unless someone set the
    attributes of the file by hand. *)
Theorem C43_size : forall lim ord m tr h id n, lim < 2 ^ 63 -> mhist lim ord m tr -> m_fh m !! h = Some id -> m_nodes m !! id = Some n -> (forall e, e ∈ tr -> ~ touches id e) ->
  exists a, mstep lim ord m (MFstat h) = Done (MStat (Ok a), m) /\ a_size a = file_size (writes tr id).
Proof.
  intros lim ord m tr h id n Hlim H Hh Hn Ht. pose proof (mhist_inv _ _ _ _ Hlim H) as HC. cbn [mstep]. rewrite Hh, Hn. eexists. split; [reflexivity|]. destruct (mi_fh _ (ci_inv _ _ HC) _ _ Hh) as [_ Hf]. destruct (Hf _ Hn) as [d Hd]. destruct n as [a b ow]. cbn in Hd. subst b. exact (ci_size _ _ HC _ _ _ _ Hn Ht).
Qed.
(** No call reaches undefined behaviour as long as its handles and references are alive and nobody
    changes a directory while it is being listed. *)
Definition alive (m : mem) (o : mop) : Prop :=
  match o with
  | MEmplace d _ _ | MRemove d _ => exists a k ow, m_nodes m !! d = Some (Nd a (BDir k) ow)
  | MUpdateAttr x _ => m_nodes m !! x <> None
  | MFstat h | MPread h _ _ | MPwrite h _ _ => exists id, m_fh m !! h = Some id /\ m_nodes m !! id <> None
  | MReaddir h => exists dh a ow, m_dh m !! h = Some dh /\ m_nodes m !! dh_node dh = Some (Nd a (BDir (dh_kids dh)) ow)
  | _ => True
  end.
Theorem C43_safe : forall lim ord m tr o, lim < 2 ^ 63 -> mhist lim ord m tr -> mlegal o -> alive m o -> exists r m', mstep lim ord m o = Done (r, m').
Proof.
  intros lim ord m tr o Hlim H Hl Ha. pose proof (mhist_inv _ _ _ _ Hlim H) as HC. pose proof (ci_inv _ _ HC) as HI.
  assert (Hwn : forall path fail k, (forall id n, exists r m', k id n = Done (r, m')) -> exists r m', with_node m path fail k = Done (r, m')).
  { intros path fail k Hk. unfold with_node. destruct (m_conn m); cbn [negb]; [|eauto]. destruct (mfind_total m path HI) as (r & -> & Hr). cbn [obind]. destruct r as [id|e]; [|eauto]. destruct (Hr id eq_refl) as [n ->]. apply Hk. }
  destruct o as [dir name k|dir name|x a|c|path|path|path|path|h|h count off|h buf off|h]; cbn [alive] in Ha; cbn [mstep].
  - destruct Ha as (a & kk & ow & ->). eauto.
  - destruct Ha as (a & kk & ow & ->). destruct (kk !! name); eauto.
  - destruct (m_nodes m !! x) as [[? ? ?]|]; [eauto|contradiction].
  - eauto.
  - apply Hwn. eauto.
  - apply Hwn. eauto.
  - apply Hwn. intros id n. destruct (nd_body n); eauto.
  - apply Hwn. intros id n. destruct (nd_body n); eauto.
  - destruct Ha as (id & -> & Hn). destruct (m_nodes m !! id); [eauto|contradiction].
  - destruct Ha as (id & Hh & Hn). destruct (m_nodes m !! id) as [n|] eqn:En; [|contradiction]. pose proof (C43_pread lim ord m tr h id n count off Hlim H Hh En Hl) as E. cbn [mstep] in E. eauto.
  - destruct Ha as (id & Hh & Hn). destruct (m_nodes m !! id) as [n|] eqn:En; [|contradiction]. destruct (C43_pwrite lim ord m tr h id n buf off Hlim H Hh En Hl) as (r & m' & E & _). cbn [mstep] in E. eauto.
  - destruct Ha as ([x st rest kids] & a & ow & -> & Hn). cbn [dh_node dh_kids] in Hn. rewrite Hn. destruct st; [eauto..|]. rewrite decide_True by reflexivity. destruct rest; eauto.
Qed.
Print Assumptions C43_safe.
