(** The paths of the inodes the kernel holds, when it follows the rules of the VFS for names. *)
From Verif Require Export FsStream.
From Verif Require PropsFs.

(** ** Specification *)
(** an ordinary name: not empty, not "." and not ".." *)
Definition plain (n : bytes) : Prop := n <> [] /\ n <> DOT /\ n <> DOTDOT.
(** what a directory entry can be called *)
Definition dname (n : bytes) : Prop := n <> [] /\ 47 ∉ n /\ 0 ∉ n.
(** The VFS handles "." and ".." itself, and asks about inodes it holds only; a backend lists
    names without slashes and zero bytes (it may list "." and ".."). *)
Definition tame (k : kst) (q : request) : Prop :=
  match q with
  | QLookup _ _ n => plain n /\ dname n
  | QReadlink _ x => x = ROOT_INO \/ 0 < kcount k x
  | QOpendir b _ => forall p names e, b_opendir b p = Ok (names, e) -> Forall dname names
  | QPlusBegin _ x => kdir k x
  | _ => True
  end.
(** histories as in FsSpec.v whose requests are all tame *)
Inductive thist : Z -> fstate -> kst -> list event -> Prop :=
| thist_open root d r : attrs_ok root -> open_cache root db_empty = Done (d, r) -> thist 0 (Fst d r ∅) k0 []
| thist_step W s k h q s' o sent : thist W s k h -> klegal k s q -> tame k q -> enough W s q ->
    fstep s q = Done (s', o) -> sent_of o = (sent, false) ->
    thist (W + weight s q) s' (kstep k q sent) (h ++ [Ev s q sent]).
Lemma thist_hist W s k h : thist W s k h -> hist W s k h.
Proof. induction 1; [eapply hist_open; eassumption|eapply hist_step; eassumption]. Qed.

(** ** Paths are kept *)
Definition below (d : db) (x : Z) : Prop := exists n, d_next d = Some n /\ x < n.
Lemma has_below d x i : Inv d -> d_inodes d !! x = Some i -> below d x.
Proof. intros H Hx. destruct (inv_next _ H) as (n & Hn & _ & Hlt). exists n. split; [exact Hn|apply (Hlt _ _ Hx)]. Qed.
Definition pathkeeps (d d' : db) : Prop := next_le d d' /\ forall x comps, below d x -> walk d' 1 comps x -> walk d 1 comps x.
Lemma pathkeeps_refl d : Inv d -> pathkeeps d d.
Proof. intros H. split; [apply next_le_refl, H|auto]. Qed.
Lemma below_le d d' x : next_le d d' -> below d x -> below d' x.
Proof. intros (a & b & Ha & Hb & Hl) (n & Hn & Hx). exists b. split; [exact Hb|]. assert (a = n) by congruence. lia. Qed.
Lemma pathkeeps_trans a b c : pathkeeps a b -> pathkeeps b c -> pathkeeps a c.
Proof. intros [H1 H2] [H3 H4]. split; [eapply next_le_trans; eassumption|]. intros x comps Hx Hw. apply H2; [exact Hx|]. apply H4; [eapply below_le; eassumption|exact Hw]. Qed.
Lemma walk_snoc d c p n x e : Inv d -> walk d 1 c p -> d_treei d !! (p, x) = Some e -> de_name e = n -> walk d 1 (c ++ [n]) x.
Proof.
  intros H Hw He Hn. apply walk_app. exists p. split; [exact Hw|]. exists x. split; [|reflexivity]. apply lookup_treei; [exact H|eapply walk_u64; [exact H| |exact Hw]; unfold u64; lia|eauto].
Qed.
Lemma keeps_path d d' : Inv d -> Inv d' -> next_le d d' -> keeps d d' -> (forall x, lost d x -> lost d' x) -> pathkeeps d d'.
Proof.
  intros H H' Hn Hk Hl. split; [exact Hn|]. intros x comps. revert x. induction comps as [|n c IH] using rev_ind; intros x Hb Hw; [exact Hw|].
  apply walk_last in Hw as [[_ E]|(c' & n' & p & e & E & Hw & He & Hne)]; [destruct c; discriminate E| |exact H'].
  apply app_inj_tail in E as [<- <-]. destruct (inv_treei _ H' _ _ _ He) as (Hino & _ & _ & _ & (i & Hi & _) & Htn).
  assert (Hkn : kn d' p n x (i_attr i)) by (exists e, i; rewrite <- Hne; auto). destruct (Hk _ _ _ _ Hkn) as [[a0 Hk0]|Hnone].
  - destruct (kn_treei _ _ _ _ _ H Hk0) as (e0 & i0 & He0 & Hn0 & _). eapply walk_snoc; [exact H| |exact He0|exact Hn0]. apply IH; [|exact Hw].
    destruct (inv_treei _ H _ _ _ He0) as (_ & _ & _ & (j & Hj & _) & _). eapply has_below; eassumption.
  - exfalso. destruct (Hl x) as [Hx _]; [split; [exact Hnone|exact Hb]|]. congruence.
Qed.
Lemma step_pathkeeps W s k h q s' o : hist W s k h -> klegal k s q -> enough W s q -> fstep s q = Done (s', o) -> Inv (s_db s') -> pathkeeps (s_db s) (s_db s').
Proof.
  intros Hh Hl HW E H'. destruct (hist_inv _ _ _ _ Hh) as (HF & HA & _). pose proof (dr_inv _ _ _ (fi_dr _ _ _ HF)) as H.
  destruct (keeps_step _ _ _ _ _ _ HF HA Hl HW E) as [Hn Hk]. apply keeps_path; try assumption. intros x Hx.
  destruct (decide (u64 x)) as [Hu|Hu].
  - apply (ks_lost _ _ _ _ _ (news_step _ _ _ _ _ _ x [97] HF HA Hl HW E ltac:(vm_compute; reflexivity) Hu)). exact Hx.
  - split; [|apply (below_le _ _ _ Hn), Hx]. destruct (d_inodes (s_db s') !! x) eqn:Ex; [|reflexivity]. exfalso. apply Hu. eapply inode_range; [exact H'|exact Ex].
Qed.
Definition plain_path (d : db) (x : Z) : Prop := forall comps, walk d 1 comps x -> Forall (fun n => plain n /\ dname n) comps.
Definition noempty (d : db) : Prop := forall p c a, ~ kn d p [] c a.
Record CInv (s : fstate) (k : kst) : Prop := {
  ci_held : forall x, 0 < kcount k x -> below (s_db s) x /\ plain_path (s_db s) x;
  ci_names : noempty (s_db s);
  ci_plus : forall id snap dir, s_plus s !! id = Some (snap, dir) -> pathkeeps snap (s_db s) /\ plain_path snap dir /\ noempty snap }.
Lemma root_plain d : Inv d -> plain_path d 1.
Proof. intros H comps Hw. apply walk_last in Hw as [[_ ->]|(c & n & p & e & _ & _ & He & _)]; [constructor| |exact H]. exfalso. destruct (inv_treei _ H _ _ _ He) as (_ & ? & _). congruence. Qed.
Lemma plain_kept d d' x : pathkeeps d d' -> below d x -> plain_path d x -> plain_path d' x.
Proof. intros [_ Hk] Hb Hp comps Hw. apply Hp, Hk; assumption. Qed.
Lemma plain_child d p n x : Inv d -> plain_path d p -> plain n -> dname n -> (exists e, d_treei d !! (p, x) = Some e /\ de_name e = n) -> plain_path d x.
Proof.
  intros H Hp Hn Hd (e & He & Hne) comps Hw. apply walk_last in Hw as [[-> _]|(c & n' & q & e' & -> & Hw & He' & Hne')]; [| |exact H].
  - exfalso. destruct (inv_treei _ H _ _ _ He) as (_ & ? & _). congruence.
  - destruct (inv_treei _ H _ _ _ He) as (_ & _ & _ & _ & (i & Hi & Hpi) & _). destruct (inv_treei _ H _ _ _ He') as (_ & _ & _ & _ & (j & Hj & Hpj) & _). assert (q = p) as -> by congruence. assert (e' = e) as -> by congruence.
    apply Forall_app. split; [apply Hp, Hw|]. constructor; [|constructor]. subst n' n. auto.
Qed.
Lemma readdir_child d dir cur x n : Inv d -> readdir d dir cur = Ok (x, n) -> special n \/ exists e, d_treei d !! (dir, x) = Some e /\ de_name e = n.
Proof.
  intros H E. unfold special. unfold readdir in E. destruct (cur =? 0); [injection E as <- <-; auto|].
  destruct (parent_of d dir) as [par|]; [|discriminate]. destruct (negb (cur =? par) && (cur =? dir)); [injection E as <- <-; auto|]. right.
  assert (Hin : forall k e b, (k, e) ∈ from_key enc_ii (d_treei d) b -> d_treei d !! k = Some e).
  { intros k e b Hin. apply elem_of_from in Hin as [Hin _]. exact Hin. }
  cbv zeta in E. set (b := enc_ii _) in E. destruct (from_key enc_ii (d_treei d) b) as [|[[q c] e] l] eqn:El; [discriminate|].
  destruct (Z.eqb_spec q dir) as [->|]; [|discriminate]. cbn [negb] in E. destruct (c =? cur).
  - destruct l as [|[[q' c'] e'] l]; [discriminate|]. destruct (Z.eqb_spec q' dir) as [->|]; [|discriminate]. injection E as <- <-. exists e'. split; [|reflexivity]. apply (Hin _ _ b). rewrite El. right. left.
  - injection E as <- <-. exists e. split; [|reflexivity]. apply (Hin _ _ b). rewrite El. left.
Qed.
Lemma scan_child d dir cur l e : Inv d -> scan d dir cur l e -> Forall (fun b => special (be_name b) \/ exists e, d_treei d !! (dir, be_ino b) = Some e /\ de_name e = be_name b) (map to_bent l).
Proof. intros H Hs. induction Hs as [| |cur x n a l e Hr Ha Hs IH]; cbn; constructor; [|exact IH]. cbn. eapply readdir_child; eassumption. Qed.
Lemma valid_plain d p n c e : Inv d -> d_treei d !! (p, c) = Some e -> de_name e = n -> noempty d -> ~ special n -> plain n /\ dname n.
Proof.
  intros H He Hn Hne Hs. destruct (inv_treei _ H _ _ _ He) as (Hino & _ & _ & _ & (i & Hi & _) & Htn). destruct (inv_treen _ H _ _ _ Htn) as (_ & Hv & _).
  assert (n <> []). { intros ->. rewrite Hn in Htn. apply (Hne p c (i_attr i)). exists e, i. auto. }
  rewrite Hn in Hv. apply PropsFs.good_name_iff in Hv. unfold plain, dname, special in *. destruct Hv as (_ & ? & ?). tauto.
Qed.

(** ** the invariant *)
Lemma cinv_next s k s' k' : Inv (s_db s') -> pathkeeps (s_db s) (s_db s') -> CInv s k -> noempty (s_db s') ->
  (forall id snap dir, s_plus s' !! id = Some (snap, dir) -> s_plus s !! id = Some (snap, dir) \/ snap = s_db s' /\ plain_path (s_db s') dir) ->
  (forall x, 0 < kcount k' x -> 0 < kcount k x \/ below (s_db s') x /\ plain_path (s_db s') x) -> CInv s' k'.
Proof.
  intros H' Hp [C1 C2 C3] Hn Hplus Hheld. split.
  - intros x Hx. destruct (Hheld _ Hx) as [Hx'|?]; [|assumption]. destruct (C1 _ Hx') as [Hb Hpp]. split; [eapply below_le; [apply Hp|exact Hb]|eapply plain_kept; eassumption].
  - exact Hn.
  - intros id snap dir Hid. destruct (Hplus _ _ _ Hid) as [Hid'|[-> Hpp]].
    + destruct (C3 _ _ _ Hid') as (Hk & Hpp & Hne). split; [eapply pathkeeps_trans; eassumption|auto].
    + split; [apply pathkeeps_refl; exact H'|auto].
Qed.
Lemma last_stat_notin b bp names n : forall i acc, n ∉ names -> last_stat b bp i names n acc = acc.
Proof.
  induction names as [|m names IH]; intros i acc Hn; [reflexivity|]. cbn [last_stat]. rewrite IH by (intros ?; apply Hn; right; assumption). destruct (decide (m = n)) as [->|]; [|reflexivity]. exfalso. apply Hn. left.
Qed.
Lemma noempty_step W s k h q s' o : hist W s k h -> klegal k s q -> tame k q -> enough W s q -> fstep s q = Done (s', o) -> Inv (s_db s') -> noempty (s_db s) -> noempty (s_db s').
Proof.
  intros Hh Hl Ht HW E H' Hn p c a Hk. destruct (hist_inv _ _ _ _ Hh) as (HF & HA & _). pose proof (dr_inv _ _ _ (fi_dr _ _ _ HF)) as H.
  assert (Hu : u64 p). { destruct Hk as (e & i & He & _). apply (treen_u64 _ _ _ H' He). }
  pose proof (ks_entry _ _ _ _ _ (news_step _ _ _ _ _ _ p [] HF HA Hl HW E ltac:(vm_compute; reflexivity) Hu)) as Hks.
  assert (Hr : news s q p [] = Silent \/ news s q p [] = Gone).
  { destruct q; cbn [news tame] in *; auto.
    - rewrite decide_False; [auto|]. intros [_ ->]. destruct Ht as [[? _] _]. auto.
    - destruct (lookup (s_db s) p []) as [c'|] eqn:El; [|auto]. exfalso. apply lookup_Ok in El as (_ & e & He & Hc'); [|assumption..]. destruct (treen_child _ _ _ _ H He) as (_ & _ & i & Hi & _). apply (Hn p (de_ino e) (i_attr i)). exists e, i. auto.
    - destruct (_ =? p); [|auto]. destruct (asked s p) as [pp|]; [|auto]. destruct (b_opendir _ _) as [[names e]|] eqn:Eo; [|auto]. rewrite last_stat_notin; [auto|].
      intros Hin. pose proof (Ht _ _ _ Eo) as Hd. rewrite Forall_forall in Hd. destruct (Hd _ Hin) as [? _]. congruence. }
  destruct Hr as [Hr|Hr]; rewrite Hr in Hks; [apply (Hn p c a), Hks, Hk|apply (Hks c a Hk)].
Qed.
Lemma uses_in y L : 0 < uses y L -> exists e, e ∈ L /\ ~ special (be_name e) /\ be_ino e = y.
Proof.
  unfold uses. destruct (filter _ L) as [|e l] eqn:El; [cbn; lia|]. intros _. assert (Hin : e ∈ filter (fun e => ~ special (be_name e) /\ be_ino e = y) L) by (rewrite El; left). apply elem_of_list_filter in Hin as [[? ?] ?]. eauto.
Qed.
Lemma kdir_plain s k x : Inv (s_db s) -> CInv s k -> kdir k x -> plain_path (s_db s) x.
Proof. intros H HC [->|[_ Hc]]; [apply root_plain, H|apply (ci_held _ _ HC), Hc]. Qed.
Lemma cinv_step W s k h q s' o sent : hist W s k h -> klegal k s q -> tame k q -> enough W s q -> fstep s q = Done (s', o) -> sent_of o = (sent, false) -> CInv s k -> CInv s' (kstep k q sent).
Proof.
  intros Hh Hl Ht HW E Es HC. destruct (hist_inv _ _ _ _ Hh) as (HF & HA & HW0). pose proof (fi_dr _ _ _ HF) as Hdr. pose proof (dr_inv _ _ _ Hdr) as H.
  destruct (hist_inv _ _ _ _ (hist_step _ _ _ _ _ _ _ _ Hh Hl HW E Es)) as (HF' & _ & _). pose proof (dr_inv _ _ _ (fi_dr _ _ _ HF')) as H'.
  pose proof (step_pathkeeps _ _ _ _ _ _ _ Hh Hl HW E H') as Hpk. pose proof (noempty_step _ _ _ _ _ _ _ Hh Hl Ht HW E H' (ci_names _ _ HC)) as Hne.
  assert (H63 : 2 ^ 63 < 2 ^ 64) by lia. pose proof HW as HW1. unfold enough in HW1.
  assert (Hwt : 0 <= weight s q). { destruct q; cbn [weight]; try lia. destruct (path _ _) as [[?|?]| | |]; try lia. destruct (b_opendir _ _) as [[? ?]|]; lia. }
  eapply (cinv_next s k); [exact H'|exact Hpk|exact HC|exact Hne| |].
  - intros id snap dir Hid. destruct q as [b p n|x m|fs|x|b x|b x|x size off|x|id' x|id' size off|tag|root]; cbn [fstep klegal tame] in *.
    + destruct Hl as [Hk Hb]. cbn [weight] in HW1. destruct (h_lookup_total W s k b p n HF Hk ltac:(lia)) as (s2 & l & E2 & Hc). rewrite E2 in E. injection E as <- <-.
      destruct (lookup_way W s k b p n _ _ HF Hk ltac:(lia) Hc) as [[-> _]|[(t & e & -> & _)|(t & c & a & -> & _)]]; left; exact Hid.
    + destruct (h_forget_spec W s k x m HF ltac:(lia) Hl) as (t & E2 & _). rewrite E2 in E. injection E as <- <-. left; exact Hid.
    + destruct Hl as [Hl1 Hl2]. destruct (h_forget_multi_spec W s k fs HF ltac:(lia) Hl1 Hl2) as (t & E2 & _). rewrite E2 in E. injection E as <- <-. left; exact Hid.
    + unfold h_getattr in E. destruct (getattr (s_db s) x); injection E as <- <-; left; exact Hid.
    + destruct (h_readlink_total W s k b x HF) as (s2 & l & E2 & Hc). rewrite E2 in E. injection E as <- <-. destruct (readlink_way W s k b x _ _ HF ltac:(lia) Hc) as [_ [->|(t & -> & _)]]; left; exact Hid.
    + destruct Hl as [Hk Hb]. destruct (h_opendir_total W s k b x HF Hk ltac:(lia)) as (s2 & l & E2 & Hc & Hs). rewrite E2 in E. injection E as <- <-. destruct Hs as [->|(t & -> & _)]; left; exact Hid.
    + destruct (h_readdir_total s x size off H) as (l & E2 & _). rewrite E2 in E. injection E as <- <-. left; exact Hid.
    + injection E as <- <-. left; exact Hid.
    + injection E as <- <-. cbn [s_plus s_db] in *. destruct (decide (id' = id)) as [->|Hni]; [rewrite lookup_insert in Hid; injection Hid as <- <-; right; split; [reflexivity|eapply kdir_plain; eassumption]|rewrite lookup_insert_ne in Hid by assumption; left; exact Hid].
    + destruct (s_plus s !! id') as [[snap' dir']|] eqn:Hid'; [|contradiction]. destruct (h_plus_total W s k id' size off snap' dir' HF Hid' ltac:(lia)) as (l & e & pre & post & rep & _ & _ & E2 & _). rewrite E2 in E. injection E as <- <-. cbn [s_plus] in Hid. left. apply lookup_delete_Some in Hid. tauto.
    + injection E as <- <-. left; exact Hid.
    + destruct (open_cache root (s_db s)) as [[d r]| | |] eqn:Eo; try discriminate. cbn [obind] in E. injection E as <- <-. cbn [s_plus] in Hid. rewrite lookup_empty in Hid. discriminate.
  - intros y Hy. destruct q as [b p n|x m|fs|x|b x|b x|x size off|x|id' x|id' size off|tag|root]; cbn [fstep klegal tame] in *; try (left; exact Hy).
    + destruct Hl as [Hk Hb]. cbn [weight] in HW1. destruct (h_lookup_total W s k b p n HF Hk ltac:(lia)) as (s2 & l & E2 & Hc). rewrite E2 in E. injection E as <- <-.
      destruct (lookup_way W s k b p n _ _ HF Hk ltac:(lia) Hc) as [[-> (e & ->)]|[(t & e & -> & -> & _)|(t & c & a & -> & -> & Hway & Hga & Hlk & _)]]; cbn [sent_of] in Es; rewrite answer_one in Es; injection Es as <-; cbn [kstep] in Hy; try (left; exact Hy).
      rewrite kcount_told in Hy. destruct (c =? y) eqn:Ecy; [|left; lia]. apply Z.eqb_eq in Ecy. subst y. right. cbn [s_db after set_dbr] in *.
      assert (Hpu : u64 p). { destruct (kdir_is_dir _ _ _ _ HF Hk) as (i & Hi & _). eapply inode_range; [exact H|exact Hi]. }
      apply lookup_Ok in Hlk as (_ & e & He & <-); [|exact H'|exact Hpu]. destruct (treen_child _ _ _ _ H' He) as (Hti & Hen & i & Hi & _). split; [eapply has_below; eassumption|].
      eapply (plain_child _ p n); [exact H'| |apply Ht|apply Ht|exists e; split; [exact Hti|apply (inv_treen _ H' _ _ _ He)]].
      eapply plain_kept; [exact Hpk| |eapply kdir_plain; eassumption]. destruct (kdir_is_dir _ _ _ _ HF Hk) as (j & Hj & _). eapply has_below; eassumption.
    + left. cbn [kstep] in Hy. rewrite kcount_forgot in Hy. destruct (x =? y); lia.
    + left. cbn [kstep] in Hy. rewrite kcount_forgot_all in Hy. pose proof (forget_total_nonneg y fs (proj1 Hl)). lia.
    + destruct (s_plus s !! id') as [[snap dir]|] eqn:Hid'; [|contradiction]. destruct (h_plus_total W s k id' size off snap dir HF Hid' ltac:(lia)) as (l & e & pre & post & rep & Hsc & Hfit & E2 & _ & _ & Hrep). rewrite E2 in E. injection E as <- <-.
      cbn [sent_of] in Es. rewrite answer_one in Es. injection Es as <-. destruct Hrep as [[-> _]|(-> & _)]; [|left; exact Hy]. cbn [kstep] in Hy.
      assert (Hb : Forall bent_ok (filter (kept (s_refs s)) (map to_bent l))) by (eapply (plus_bents W s k); [exact HF|exact HA|lia|exact Hid'|exact Hsc]).
      rewrite (reads_plus pre) in Hy by (eapply fits_sub; eassumption). rewrite kcount_told_plus in Hy. destruct (decide (0 < kcount k y)) as [|Hnk]; [left; assumption|]. right.
      pose proof (fi_k _ _ _ HF y). destruct (uses_in y pre ltac:(lia)) as (be & Hin & Hsp & <-). cbn [s_db].
      destruct (ci_plus _ _ HC _ _ _ Hid') as (Hks & Hpp & Hns). destruct (fi_snap _ _ _ HF _ _ _ Hid') as [His _].
      assert (Hin' : be ∈ map to_bent l). { destruct Hfit as (Hf & _). assert (be ∈ filter (kept (s_refs s)) (map to_bent l)) as Hx by (rewrite Hf; apply elem_of_app; auto). apply elem_of_list_filter in Hx. tauto. }
      pose proof (scan_child _ _ _ _ _ His Hsc) as Hall. rewrite Forall_forall in Hall. destruct (Hall _ Hin') as [?|(e' & He' & Hn')]; [contradiction|].
      destruct (valid_plain _ _ _ _ _ His He' Hn' Hns Hsp) as [Hpl Hdn]. destruct (inv_treei _ His _ _ _ He') as (_ & _ & _ & _ & (i & Hi & _) & _). pose proof (has_below _ _ _ His Hi) as Hbl.
      split; [eapply below_le; [apply Hks|exact Hbl]|]. eapply plain_kept; [exact Hks|exact Hbl|]. eapply (plain_child _ dir (be_name be)); eauto.
    + exfalso. revert Hy. change (0 < 0 -> False). lia.
Qed.
Lemma open_noempty root d r : open_cache root db_empty = Done (d, r) -> noempty d.
Proof.
  intros Eo p c a Hk. destruct (open_cache_spec root db_empty (init_db_inv root)) as (R & HR & E' & _). rewrite E' in Eo. injection Eo as <- <-. apply cleaned_kn_rev in Hk. destruct Hk as (e & i & He & _). vm_compute in He. discriminate.
Qed.
Lemma thist_CInv W s k h : thist W s k h -> CInv s k.
Proof.
  intros Ht. induction Ht as [root d r Ha E|W s k h q s' o sent Hh IH Hl Ht Hen E Es].
  - split; cbn [s_db s_plus]; [|eapply open_noempty; eassumption|intros id snap dir Hid; rewrite lookup_empty in Hid; discriminate]. intros x Hx. exfalso. revert Hx. change (0 < 0 -> False). lia.
  - eapply cinv_step; try eassumption. apply thist_hist, Hh.
Qed.
(** The backend is asked about a held inode at an ordinary path only. *)
Lemma clean_asked W s k h x pp : thist W s k h -> x = ROOT_INO \/ 0 < kcount k x -> asked s x = Some pp ->
  exists comps, pp = spell comps /\ Forall (fun n => plain n /\ dname n) comps.
Proof.
  intros Ht Hx Ha. pose proof (thist_CInv _ _ _ _ Ht) as HC. destruct (hist_inv _ _ _ _ (thist_hist _ _ _ _ Ht)) as (HF & _). pose proof (dr_inv _ _ _ (fi_dr _ _ _ HF)) as H.
  destruct (asked_some _ _ _ H Ha) as (comps & Hw & ->). exists comps. split; [reflexivity|]. destruct Hx as [->|Hx]; [apply (root_plain _ H), Hw|apply (ci_held _ _ HC _ Hx), Hw].
Qed.
