(** C33: exactly which requests call a second reply function. *)
From Verif Require Export PropsFs.

Lemma orphan_inode d x : is_orphan d x -> exists i, d_inodes d !! x = Some i.
Proof. intros [Hr H]. unfold parent_of in H. rewrite (proj2 (Z.eqb_neq _ _) Hr) in H. destruct (d_inodes d !! x) as [i|]; [eauto|discriminate]. Qed.
Lemma orphan_scan d x cur l e : Inv d -> is_orphan d x -> scan d x cur l e -> cur <> 0 -> cur <> x -> e = 0.
Proof.
  intros H Ho. destruct (Ho) as [_ Hp]. induction 1 as [cur e Hr|cur y n e Hr Hg|cur y n a l e Hr Hg _ IH]; intros H0 Hx.
  all: unfold readdir in Hr; rewrite (proj2 (Z.eqb_neq cur 0) H0), Hp, (proj2 (Z.eqb_neq cur 0) H0), (proj2 (Z.eqb_neq cur x) Hx) in Hr; cbn [negb andb] in Hr; cbv zeta in Hr.
  all: assert (Hin : forall k v b, (k, v) ∈ from_key enc_ii (d_treei d) b -> d_treei d !! k = Some v) by (intros k v b Hk; apply elem_of_from in Hk as [Hk _]; exact Hk).
  all: destruct (from_key enc_ii (d_treei d) (enc_ii (x, cur))) as [|[[q c] v] ll] eqn:Ef; try (congruence).
  all: assert (Hc1 : d_treei d !! (q, c) = Some v) by (apply (Hin _ _ (enc_ii (x, cur))); rewrite Ef; left).
  all: destruct (Z.eqb_spec q x) as [Hq|]; [rewrite Hq in Hc1|]; cbn [negb] in Hr; [|congruence].
  all: destruct (c =? cur); [destruct ll as [|[[q' c'] v'] ll]; [congruence|]; assert (Hc2 : d_treei d !! (q', c') = Some v') by (apply (Hin _ _ (enc_ii (x, cur))); rewrite Ef; right; left); destruct (Z.eqb_spec q' x) as [Hq'|]; [rewrite Hq' in Hc2|]; cbn [negb] in Hr; [|congruence]|].
  all: try congruence.
  all: injection Hr as <- <-.
  all: match goal with Hc : d_treei ?d0 !! (?w, ?z) = Some _, Hg : getattr _ ?z = _, HH : Inv _ |- _ => destruct (inv_treei _ HH _ _ _ Hc) as (_ & _ & Hlt & _ & (i & Hi & _) & _) end.
  all: try (apply getattr_Err in Hg as [Hg _]; congruence).
  all: apply IH; lia.
Qed.
(** A listing calls a second reply function, and the process ends, exactly when the buffer is not
    empty and the directory is unknown, or was removed and the listing starts at its beginning
    with more than 32 bytes, or right behind the entry ".". *)
Definition second_reply (s : fstate) (x size off : Z) : Prop :=
  0 < size /\ (~ has_inode (s_db s) x \/ is_orphan (s_db s) x /\ (w64 off = 0 /\ 32 < size \/ w64 off = x)).
Theorem C33_exact : forall W s k h q s' o, hist W s k h -> klegal k s q -> enough W s q -> fstep s q = Done (s', o) ->
  (sent_of o).2 = true <-> exists x size off, q = QReaddir x size off /\ second_reply s x size off.
Proof.
  intros W s k h q s' o H Hl Hen E. destruct (hist_inv _ _ _ _ H) as (HF & HA & HW). pose proof (dr_inv _ _ _ (fi_dr _ _ _ HF)) as Hi. split.
  - intros Ht. destruct (C33_one_reply_partial _ _ _ _ _ H Hl Hen) as (s2 & o2 & E2 & _ & Hthr). rewrite E2 in E. injection E as -> ->. destruct (Hthr Ht) as (-> & x & size & off & -> & Hor). exists x, size, off. split; [reflexivity|].
    cbn [fstep] in E2. destruct (h_readdir_total s x size off Hi) as (l & E3 & Hc). rewrite E3 in E2. cbn [obind] in E2. injection E2 as <-. destruct Hc as [l e pre post Hs Hf Hp|l pre H0 Hs Hf Hp|H0 Hs Hf|l e pre H0 Hs Hf Hne He Hcase]; cbn [sent_of] in Ht; rewrite ?answer_one in Ht; try discriminate Ht.
    split; [exact H0|]. destruct Hcase as [[_ Hno]|Horph]; [left; exact Hno|]. right. split; [exact Horph|]. destruct (decide (w64 off = x)) as [|Hx]; [auto|]. left. destruct (decide (w64 off = 0)) as [Hz|Hz]; [|exfalso; apply Hne; exact (orphan_scan _ _ _ _ _ Hi Horph Hs Hz Hx)]. split; [exact Hz|].
    rewrite Hz in Hs. destruct (orphan_inode _ _ Horph) as [i Hix]. inversion Hs as [? ? Hr|? ? ? ? Hr Hg|? ? ? ? ? ? Hr Hg Hs']; subst; unfold readdir in Hr; cbn [Z.eqb] in Hr; try discriminate Hr; injection Hr as <- <-.
    + apply getattr_Err in Hg as [Hg _]. congruence.
    + destruct Hf as (El & Hf & _). destruct (Hf H0) as [Hlt _]. rewrite app_nil_r in El. subst pre. cbn [map] in Hlt. change (?a :: ?b) with ([a] ++ b) in Hlt. rewrite total_app in Hlt. assert (Hpos : forall l, 0 <= total_size dirent_size l). { intros ll. unfold total_size. induction ll as [|y ll IH]; [reflexivity|]. cbn [fold_right]. pose proof (dirent_size_pos (be_name y)). lia. }
      specialize (Hpos (map to_bent l0)). change (total_size dirent_size [to_bent (x, DOT, a)]) with 32 in Hlt. lia.
  - intros (x & size & off & -> & H0 & Hcase). cbn [fstep] in E. destruct (h_readdir_total s x size off Hi) as (l & E3 & Hc). rewrite E3 in E. cbn [obind] in E. injection E as _ <-.
    assert (Hscan : exists l e, scan (s_db s) x (w64 off) l e /\ e <> 0 /\ (l = [] \/ exists a, l = [(x, DOT, a)] /\ 32 < size)).
    { destruct Hcase as [Hno|[Horph [[Hz H32]|Hx]]].
      - assert (Hni : d_inodes (s_db s) !! x = None). { destruct (d_inodes (s_db s) !! x) as [i|] eqn:Ei; [|reflexivity]. exfalso. apply Hno. exists (i_attr i). apply getattr_Ok. eauto. }
        destruct (decide (w64 off = 0)) as [Hz|Hz].
        + exists [], ENOENT. split; [|split; [discriminate|auto]]. rewrite Hz. eapply scan_stat; [reflexivity|]. apply getattr_Err. auto.
        + exists [], EIO. split; [|split; [discriminate|auto]]. apply scan_end. unfold readdir. rewrite (proj2 (Z.eqb_neq _ _) Hz). unfold parent_of. assert (Hr : x <> ROOT_INO). { intros ->. destruct (inv_root _ Hi) as (i & Hri & _). unfold ROOT_INO in Hni. congruence. } rewrite (proj2 (Z.eqb_neq _ _) Hr), Hni. reflexivity.
      - destruct (orphan_inode _ _ Horph) as [i Hix]. exists [(x, DOT, i_attr i)], ENOENT. split; [|split; [discriminate|eauto]]. rewrite Hz. eapply scan_entry; [reflexivity|apply getattr_Ok; eauto|].
        eapply scan_stat; [|apply getattr_Err; split; [|reflexivity]]. 
        + unfold readdir. destruct (inode_range _ _ _ Hi Hix) as [Hx1 _]. rewrite (proj2 (Z.eqb_neq x 0)) by lia. rewrite (proj2 Horph), (proj2 (Z.eqb_neq x 0)) by lia. rewrite Z.eqb_refl. reflexivity.
        + destruct (d_inodes (s_db s) !! 0) as [i0|] eqn:E0; [|reflexivity]. destruct (inode_range _ _ _ Hi E0). lia.
      - destruct (orphan_inode _ _ Horph) as [i Hix]. exists [], ENOENT. split; [|split; [discriminate|auto]]. rewrite Hx. eapply scan_stat; [|apply getattr_Err; split; [|reflexivity]].
        + unfold readdir. destruct (inode_range _ _ _ Hi Hix) as [Hx1 _]. rewrite (proj2 (Z.eqb_neq x 0)) by lia. rewrite (proj2 Horph), (proj2 (Z.eqb_neq x 0)) by lia. rewrite Z.eqb_refl. reflexivity.
        + destruct (d_inodes (s_db s) !! 0) as [i0|] eqn:E0; [|reflexivity]. destruct (inode_range _ _ _ Hi E0). lia. }
    destruct Hscan as (l0 & e0 & Hs0 & Hne0 & Hl0). destruct Hc as [l e pre post Hs Hf Hp|l pre _ Hs Hf Hp|_ Hs Hf|l e pre _ Hs Hf Hne He Hcs]; [|exfalso..|reflexivity].
    2: { apply Hne0. symmetry. apply (scan_fun _ _ _ _ _ Hs _ _ Hs0). }
    2: { apply Hne0. symmetry. apply (scan_fun _ _ _ _ _ Hs _ _ Hs0). }
    destruct (scan_fun _ _ _ _ _ Hs _ _ Hs0) as [-> Ee].
    exfalso. specialize (Hp H0). destruct Hf as (El & Hf & _). destruct (Hf H0) as [Hlt Hpost]. destruct Hl0 as [->|(a & -> & H32)].
    + symmetry in El. apply app_eq_nil in El as [_ ->]. congruence.
    + destruct post as [|y post]; [congruence|]. cbn [map] in El. destruct pre as [|z pre]; [|injection El as _ El; destruct pre; discriminate El]. injection El as El _. subst y. change (size <= 32) in Hpost. lia.
Qed.
Print Assumptions C33_exact.
(** sample: all three ways, and a removed directory listed from further behind *)
Lemma removed_hist : hist (sW qs_removed) (sS qs_removed) (sK qs_removed) (sH qs_removed).
Proof. apply sess_hist. repeat (apply Forall_cons; split; [first [exact online_ok|exact empty_ok]|]); apply Forall_nil; exact I. Qed.
Definition qs_held : list request := [QLookup online 1 nD; QLookup online 1 nD; QLookup online 2 nF; QLookup (finite [] [] []) 1 nD].
Lemma held_hist : hist (sW qs_held) (sS qs_held) (sK qs_held) (sH qs_held).
Proof. apply sess_hist. repeat (apply Forall_cons; split; [first [exact online_ok|exact empty_ok]|]); apply Forall_nil; exact I. Qed.
Definition thrown (s : fstate) (q : request) : option bool := match fstep s q with Done (_, o) => Some (sent_of o).2 | _ => None end.
Example C33_exact_sample : is_orphan (s_db (sS qs_held)) 2 /\ thrown (sS qs_held) (QReaddir 2 33 0) = Some true /\ thrown (sS qs_held) (QReaddir 2 32 0) = Some false /\
  thrown (sS qs_held) (QReaddir 2 8 2) = Some true /\ thrown (sS qs_held) (QReaddir 2 4096 3) = Some false /\ thrown (sS qs_held) (QReaddir 9 1 5) = Some true /\ thrown (sS qs_held) (QReaddir 9 0 5) = Some false.
Proof. split; [split; [discriminate|vm_compute; reflexivity]|]. repeat split; vm_compute; reflexivity. Qed.
