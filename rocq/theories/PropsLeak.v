(** File system property C38 (continued): how many references can leak. *)
From Verif Require Export PropsPlus.

(** ** a scan lists no inode twice *)
(** [readdir] in a directory without parent, from an entry on *)
Lemma readdir_orphan d x off c n : Inv d -> u64 x -> u64 off -> parent_of d x = Ok 0 -> off <> 0 -> off <> x -> readdir d x off = Ok (c, n) ->
  u64 c /\ c <> 0 /\ c <> x /\ blt (le64 off) (le64 c).
Proof.
  intros H Hx Ho Hp H0 H1 E. unfold readdir in E. destruct (Z.eqb_spec off 0); [contradiction|]. rewrite Hp in E.
  destruct (Z.eqb_spec off x); [contradiction|]. rewrite andb_false_r in E.
  assert (Hgen : forall c e b, ((x, c), e) ∈ from_key enc_ii (d_treei d) (enc_ii (x, b)) -> u64 c /\ c <> 0 /\ c <> x /\ ble (le64 b) (le64 c)).
  { intros y e b Hin. apply elem_of_from in Hin as [Hin Hle]. apply ble_enc in Hle. destruct (child_facts d x 0 y (de_name e) H Hp) as (U & L & _); [apply elem_dir_entries; eauto|]. split; [exact U|]. split; [lia|]. split; [lia|exact Hle]. }
  assert (Hb : ble (le64 x) (enc_ii (x, off))) by apply scan_before. destruct (Z.eqb_spec off 0); [contradiction|].
  destruct (from_key enc_ii (d_treei d) (enc_ii (x, off))) as [|[[q c1] e1] l] eqn:El; [discriminate|].
  destruct (Z.eqb_spec q x) as [->|]; [|discriminate]. cbn [negb] in E. destruct (Z.eqb_spec c1 off) as [->|Hne].
  - destruct l as [|[[q2 c2] e2] l]; [discriminate|]. destruct (Z.eqb_spec q2 x) as [->|]; [|discriminate]. cbn [negb] in E. injection E as <- <-.
    destruct (from_children d x _ [] x off e1 _ H Hx Hb El c2 e2 ltac:(left)) as [_ Hlt]. destruct (Hgen c2 e2 off) as (A & B & C & _); [rewrite El; right; left|]. auto.
  - injection E as <- <-. destruct (Hgen c1 e1 off) as (A & B & C & D); [rewrite El; left|]. repeat split; auto; try apply A. apply ble_lt_eq in D as [D|D]; [exact D|]. apply le64_inj in D; [congruence|assumption..].
Qed.
Lemma nodup_uses y (l : list dent) : NoDup (inos l) -> uses y (map to_bent l) <= 1.
Proof.
  induction l as [|[[c n] a] l IH]; cbn [inos map]; intros H; [change (uses y []) with 0; lia|]. apply NoDup_cons in H as [Hn H]. rewrite uses_cons. cbn [to_bent be_name be_ino].
  destruct (decide _) as [[_ Hc]|]; [|specialize (IH H); lia]. cbn [fst] in Hn, Hc. subst c. enough (uses y (map to_bent l) = 0) by lia.
  clear IH. unfold uses. enough (E : forall L, (forall b, b ∈ L -> be_ino b <> y) -> filter (fun e => ~ special (be_name e) /\ be_ino e = y) L = []).
  { rewrite E; [reflexivity|]. intros b Hb Eb. apply elem_of_list_fmap in Hb as ([[c' n'] a'] & -> & Hb). cbn in Eb. subst c'. apply Hn. cbn. apply elem_of_list_fmap. exists (y, n', a'). auto. }
  induction L as [|b L IH]; intros HL; [reflexivity|]. rewrite filter_cons. destruct (decide _) as [[_ E]|]; [destruct (HL b ltac:(left) E)|]. apply IH. intros b' Hb'. apply HL. right. exact Hb'.
Qed.
Lemma scan_orphan d x off l e : Inv d -> u64 x -> parent_of d x = Ok 0 -> scan d x off l e -> u64 off -> off <> 0 -> off <> x -> StronglySorted (fun a b => blt (le64 a) (le64 b)) (off :: inos l).
Proof.
  intros H Hx Hp. induction 1 as [cur e Hr|cur c n e Hr Hg|cur c n a l e Hr Hg Hs IH]; intros Hu H0 H1; [constructor; constructor..|].
  destruct (readdir_orphan _ _ _ _ _ H Hx Hu Hp H0 H1 Hr) as (U & C0 & C1 & Hlt). specialize (IH U C0 C1). cbn [inos map fst]. constructor; [exact IH|]. constructor; [exact Hlt|].
  inversion IH as [|? ? _ HF]; subst. eapply Forall_impl; [exact HF|]. intros b Hb. cbn in Hb. eapply blt_trans; eassumption.
Qed.
Lemma scan_distinct d x off l e : Inv d -> u64 off -> scan d x off l e -> NoDup (inos l).
Proof.
  intros H Hu Hs. destruct (parent_of d x) as [p|ep] eqn:Hp.
  - assert (Hhx : has_inode d x).
    { unfold parent_of in Hp. destruct (Z.eqb_spec x ROOT_INO) as [->|]; [apply has_inode_iff; destruct (inv_root _ H) as (i & Hi & _); eauto|]. destruct (d_inodes d !! x) as [i|] eqn:Ei; [|discriminate]. apply has_inode_iff. eauto. }
    assert (Hx : u64 x /\ 1 <= x) by (apply has_inode_iff in Hhx as [i Hi]; destruct (inode_range _ _ _ H Hi); auto). destruct Hx as [Hx Hx1]. destruct (decide (p = 0)) as [->|Hp0].
    + assert (Hgen : forall off, off <> 0 -> off <> x -> u64 off -> forall l e, scan d x off l e -> NoDup (inos l)).
      { intros o H0 H1 H2 l' e' Hs'. pose proof (scan_orphan d x o l' e' H Hx Hp Hs' H2 H0 H1) as Hso. apply StronglySorted_inv in Hso as [Hso _]. revert Hso. generalize (inos l'). intros L. induction L as [|c L IH]; intros Hso; [constructor|]. inversion Hso as [|? ? A B]; subst.
        constructor; [|auto]. intros Hin. rewrite Forall_forall in B. exact (blt_irrefl _ (B _ Hin)). }
      assert (Hself : forall l e, scan d x x l e -> l = []).
      { intros l' e' Hs'. assert (Er : readdir d x x = Ok (0, DOTDOT)). { unfold readdir. destruct (Z.eqb_spec x 0); [lia|]. rewrite Hp. destruct (Z.eqb_spec x 0); [lia|]. rewrite Z.eqb_refl. reflexivity. }
        inversion Hs' as [|? ? ? ? Hr Hg|? ? ? ? ? ? Hr Hg _]; subst; [reflexivity..|]. exfalso. rewrite Er in Hr. injection Hr as <- <-. unfold getattr in Hg. destruct (d_inodes d !! 0) as [i|] eqn:Ei; [|discriminate]. destruct (inode_range _ _ _ H Ei). lia. }
      destruct (decide (off = 0)) as [->|H0].
      * inversion Hs as [|? ? ? ? Hr Hg|? c n a l' ? Hr Hg Hs']; subst; [constructor..|]. assert (c = x) by (unfold readdir in Hr; cbn in Hr; congruence). subst c. rewrite (Hself _ _ Hs'). cbn. apply NoDup_singleton.
      * destruct (decide (off = x)) as [->|H1]; [rewrite (Hself _ _ Hs); constructor|]. eapply Hgen; eassumption.
    + destruct (scan_rest d x p off l e H Hx Hhx Hp Hp0 Hs Hu) as (_ & Hso & Hall & _). eapply sorted_nodup; [exact Hso|]. rewrite Forall_forall. intros c Hc. unfold inos in Hc. apply elem_of_list_fmap in Hc as ([[c' n] a] & -> & Hc). destruct (Hall _ _ _ Hc) as (Hi & _). destruct (inl_has _ _ _ _ _ H Hp Hp0 Hx Hhx Hi) as (_ & ? & _). cbn. lia.
  - assert (Hgen : forall off, off <> 0 -> forall l e, scan d x off l e -> l = []).
    { intros o H0 l' e' Hs'. assert (Er : readdir d x o = Err EIO) by (unfold readdir; destruct (Z.eqb_spec o 0); [contradiction|]; rewrite Hp; reflexivity). inversion Hs' as [|? ? ? ? Hr Hg|? ? ? ? ? ? Hr Hg _]; subst; [reflexivity..|congruence]. }
    destruct (decide (off = 0)) as [->|H0]; [|rewrite (Hgen off H0 _ _ Hs); constructor].
    inversion Hs as [|? ? ? ? Hr Hg|? c n a l' ? Hr Hg Hs']; subst; [constructor..|]. assert (c = x) by (unfold readdir in Hr; cbn in Hr; congruence). subst c.
    assert (x <> 0). { intros ->. unfold getattr in Hg. destruct (d_inodes d !! 0) as [i|] eqn:Ei; [|discriminate]. destruct (inode_range _ _ _ H Ei). lia. }
    rewrite (Hgen x ltac:(assumption) _ _ Hs'). cbn. apply NoDup_singleton.
Qed.
Lemma uses_filter y P `{!forall x, Decision (P x)} L : uses y (filter P L) <= uses y L.
Proof. induction L as [|b L IH]; [reflexivity|]. rewrite filter_cons, (uses_cons y b L). destruct (decide (P b)); [rewrite uses_cons; lia|]. destruct (decide (~ special _ /\ _)); lia. Qed.

(** ** the bound *)
(** the number of readdirplus requests that ran since the program was started last *)
Fixpoint plus_runs (n : Z) (h : list event) : Z :=
  match h with
  | [] => n
  | e :: h => plus_runs match ev_q e with QPlusRun _ _ _ => n + 1 | QRestart _ => 0 | _ => n end h
  end.
Lemma plus_runs_app n h1 h2 : plus_runs n (h1 ++ h2) = plus_runs (plus_runs n h1) h2.
Proof. revert n. induction h1 as [|e h1 IH]; intros n; [reflexivity|]. apply IH. Qed.
Lemma plus_runs_nonneg h : forall n, 0 <= n -> 0 <= plus_runs n h.
Proof. induction h as [|e h IH]; intros n Hn; [exact Hn|]. apply IH. destruct (ev_q e); lia. Qed.
(** One readdirplus leaks at most one reference to each inode, so the cache never holds more
    references to an inode than the kernel does plus the number of readdirplus requests since the
    last start. *)
Theorem C38_leak_bound : forall W s k h x, hist W s k h -> refcount (s_refs s) x <= kcount k x + plus_runs 0 h.
Proof.
  intros W s k h x H. induction H as [root d r Ha E|W s k h q s' o sent H IH Hl Hen E Es].
  - destruct (open_cache_spec root db_empty (init_db_inv root)) as (R & _ & E' & _). rewrite E' in E. injection E as <- <-. cbn [s_refs plus_runs]. rewrite refcount_doom_all. unfold refcount, kcount, k0. cbn [k_cnt]. rewrite !lookup_empty. cbn. lia.
  - destruct (hist_inv _ _ _ _ H) as (HF & HA & _). pose proof (step_counts W s k q s' o sent x HF HA Hl Hen E Es) as Hc. unfold unheld in Hc.
    rewrite plus_runs_app. cbn [plus_runs ev_q]. destruct q; try lia. destruct Hc as (snap & dir & l & e & pre & post & Hid & Hsc & Hfit & Hcase).
    assert (Hu : uses x pre + uses x post <= 1).
    { rewrite <- uses_app. destruct Hfit as (<- & _). eapply Z.le_trans; [apply uses_filter|]. apply nodup_uses. eapply scan_distinct; [exact (proj1 (fi_snap _ _ _ HF _ _ _ Hid))| |exact Hsc]. unfold u64, w64. apply Z.mod_pos_bound. lia. }
    pose proof (uses_nonneg x pre). pose proof (uses_nonneg x post).
    assert (Ht : uses x (take 1 post) <= uses x post). { destruct post as [|b post]; [reflexivity|]. cbn [take]. rewrite take_0, !uses_cons. change (uses x []) with 0. pose proof (uses_nonneg x post). destruct (decide _); lia. }
    destruct Hcase as [[_ Hc]|[(_ & _ & _ & _ & Hc)|(_ & _ & _ & Hc)]]; [destruct (0 <? _)|..]; lia.
Qed.
Print Assumptions C38_leak_bound.
(** The bound is met: reading the same entry again and again leaks a reference each time. *)
Definition qs_leak2 : list request := qs_leak ++ [QPlusBegin 0 2; QPlusRun 0 320 1; QPlusBegin 7 2; QPlusRun 7 320 1].
Example C38_leak_bound_sample : hist (sW qs_leak2) (sS qs_leak2) (sK qs_leak2) (sH qs_leak2) /\ refcount (s_refs (sS qs_leak2)) 4 = 3 /\ kcount (sK qs_leak2) 4 = 0 /\ plus_runs 0 (sH qs_leak2) = 3.
Proof. split; [apply sess_hist; qs_ok|]. vm_compute. auto. Qed.
