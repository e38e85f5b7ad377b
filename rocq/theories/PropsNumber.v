(** C84: inode numbers and paths.  A program sees the inode number of a path in the reply to the
    lookup of its last component. *)
From Verif Require Import PropsFs PropsWalk.

(** ** Lemmas *)
(** a lookup that finds something was made in a directory that has a path *)
Lemma found_path W s k h s1 b p n c a : hist W s k (h ++ [Ev s1 (QLookup b p n) [REntry c a]]) -> exists comps, walk (s_db s1) 1 comps p.
Proof.
  intros H1. apply hist_last in H1 as (W0 & k0' & s' & o & sent & H0 & [Hk Hb] & Hen0 & E & Es & Ee & -> & -> & ->). cbn [ev_s ev_q] in *. injection Ee as <-.
  destruct (hist_inv _ _ _ _ H0) as (HF0 & HA0 & HW0). unfold enough in Hen0. cbn [weight fstep] in *. destruct (h_lookup_total W0 s1 k0' b p n HF0 Hk ltac:(lia)) as (s2' & l & E2 & Hc). rewrite E2 in E. injection E as <- <-.
  inversion Hc; subst; cbn [sent_of] in Es; rewrite answer_one in Es; try discriminate Es; eexists; eassumption.
Qed.
(** afterwards the path leads to the inode of the reply *)
Lemma found_twalk W s k h s1 b p names n c a : hist W s k (h ++ [Ev s1 (QLookup b p n) [REntry c a]]) -> known_as h p names S_IFDIR ->
  twalk (s_db s) (names ++ [n]) c (ftype (a_mode a)).
Proof.
  intros H1 Hk. destruct (found_path _ _ _ _ _ _ _ _ _ _ H1) as [comps Hw]. pose proof H1 as H2. apply hist_last in H2 as (W0 & k0' & s' & o & sent & H0 & Hl & Hen & E & Es & Ee & -> & -> & ->). cbn [ev_s ev_q] in *. injection Ee as <-.
  destruct (known_only _ _ _ _ Hk _ _ _ H0) as [_ Ho]. rewrite (Ho _ Hw) in Hw. destruct (hist_inv _ _ _ _ H0) as (HF0 & _). pose proof (kdir_is_dir _ _ _ _ HF0 (proj1 Hl)) as Hd.
  eapply lookup_twalk; [exact H0|exact Hl|exact Hen|eapply walk_twalk; [eapply hist_Inv; exact H0|exact Hw|exact Hd]|]. exists o. split; assumption.
Qed.

(** ** Theorems *)
(** Two lookups of one path, whatever happened in between, restarts included: the same inode
    number, and the same type, unless the backend said in between that some component of the path
    is not there or is of another type. *)
Theorem C84_same : forall W s k h s1 b1 p1 n c1 a1 mid s2 b2 p2 c2 a2 names,
  hist W s k ((h ++ [Ev s1 (QLookup b1 p1 n) [REntry c1 a1]]) ++ (mid ++ [Ev s2 (QLookup b2 p2 n) [REntry c2 a2]])) ->
  known_as h p1 names S_IFDIR -> known_as ((h ++ [Ev s1 (QLookup b1 p1 n) [REntry c1 a1]]) ++ mid) p2 names S_IFDIR ->
  (forall e, e ∈ mid ++ [Ev s2 (QLookup b2 p2 n) [REntry c2 a2]] -> ~ denies_path (ev_s e) (ev_q e) (names ++ [n]) (ftype (a_mode a1))) ->
  c2 = c1 /\ ftype (a_mode a2) = ftype (a_mode a1).
Proof.
  intros W s k h s1 b1 p1 n c1 a1 mid s2 b2 p2 c2 a2 names H K1 K2 Hnd. destruct (hist_split _ _ _ _ _ H) as (Wm & sm & km & Hm & HG).
  pose proof (found_twalk _ _ _ _ _ _ _ _ _ _ _ Hm K1) as T1. destruct (goes_twalk _ _ _ _ _ _ _ _ _ _ HG _ Hm T1) as [T1'|(e & He & Hd)]; [|destruct (Hnd e He Hd)].
  rewrite app_assoc in H. pose proof (found_twalk _ _ _ _ _ _ _ _ _ _ _ H K2) as T2. exact (twalk_fun _ _ _ _ _ _ (hist_Inv _ _ _ _ H) T2 T1').
Qed.
Print Assumptions C84_same.
(** Two lookups that reply the same inode number were of the same path: a number never passes to
    another path, not even after the file was removed, and there are no two names for one inode. *)
Theorem C84_distinct : forall W s k h s1 b1 p1 n1 c a1 mid s2 b2 p2 n2 a2 names1 names2,
  hist W s k ((h ++ [Ev s1 (QLookup b1 p1 n1) [REntry c a1]]) ++ (mid ++ [Ev s2 (QLookup b2 p2 n2) [REntry c a2]])) ->
  known_as h p1 names1 S_IFDIR -> known_as ((h ++ [Ev s1 (QLookup b1 p1 n1) [REntry c a1]]) ++ mid) p2 names2 S_IFDIR ->
  names1 ++ [n1] = names2 ++ [n2].
Proof.
  intros W s k h s1 b1 p1 n1 c a1 mid s2 b2 p2 n2 a2 names1 names2 H K1 K2. destruct (hist_split _ _ _ _ _ H) as (Wm & sm & km & Hm & HG).
  pose proof (known_only _ _ _ _ (ka_lookup h s1 b1 p1 n1 c a1 names1 K1) _ _ _ Hm) as O1. pose proof (goes_pathkeeps _ _ _ _ _ _ _ HG _ Hm) as Hp. destruct (only_kept _ _ _ _ Hp O1) as [_ Ho].
  rewrite app_assoc in H. pose proof (found_twalk _ _ _ _ _ _ _ _ _ _ _ H K2) as T2. symmetry. apply Ho. eapply twalk_walk; [eapply hist_Inv; exact H|exact T2].
Qed.
Print Assumptions C84_distinct.

(** what leads to an inode is an entry of a directory *)
Lemma walk_has d names n c : Inv d -> walk d 1 (names ++ [n]) c -> valid_name n /\ Forall noslash names /\ exists a, has_at d names n a.
Proof.
  intros Hi Hw. pose proof (walk_noslash _ _ _ _ Hi u64_1 Hw) as Hs. apply Forall_app in Hs as [Hs _]. apply walk_app in Hw as (p & Hw & (z & Hl & Hz)). cbn [walk] in Hz. subst z. assert (Hp : u64 p) by (eapply walk_u64; [exact Hi|exact u64_1|exact Hw]).
  apply lookup_treei in Hl as (e & He & <-); [|assumption..]. destruct (inv_treei _ Hi _ _ _ He) as (E1 & _ & _ & Hpd & (i & Hpi & _) & Hn). split; [apply (inv_treen _ Hi _ _ _ Hn)|]. split; [exact Hs|].
  exists (i_attr i). exists p, c. split; [eapply walk_twalk; [exact Hi|exact Hw|exact Hpd]|]. exists e, i. auto.
Qed.
(** When the backend said that the file or a directory on the way to it is gone, its inode number
    is never replied again, for whatever path; if the path is back, it has another number. *)
Theorem C84_gone : forall W s k h s1 b1 p1 n c1 a1 mid1 e mid2 s2 b2 p2 n2 c2 a2 names,
  hist W s k (((h ++ [Ev s1 (QLookup b1 p1 n) [REntry c1 a1]]) ++ mid1 ++ [e]) ++ (mid2 ++ [Ev s2 (QLookup b2 p2 n2) [REntry c2 a2]])) ->
  known_as h p1 names S_IFDIR ->
  denies_path (ev_s e) (ev_q e) names S_IFDIR \/ word_of (ev_s e) (ev_q e) names n = IsGone ->
  c2 <> c1.
Proof.
  intros W s k h s1 b1 p1 n c1 a1 mid1 e mid2 s2 b2 p2 n2 c2 a2 names H K1 Hgone ->. destruct (hist_split _ _ _ _ _ H) as (We & se & ke & He & HG). destruct (hist_split _ _ _ _ _ He) as (Wm & sm & km & Hm & HG0).
  pose proof (found_twalk _ _ _ _ _ _ _ _ _ _ _ Hm K1) as T1. pose proof (hist_Inv _ _ _ _ Hm) as Him. destruct (walk_has _ _ _ _ Him (twalk_walk _ _ _ _ Him T1)) as (Hv & Hs & _).
  pose proof (known_only _ _ _ _ (ka_lookup h s1 b1 p1 n c1 a1 names K1) _ _ _ Hm) as O1. destruct (only_kept _ _ _ _ (goes_pathkeeps _ _ _ _ _ _ _ HG0 _ Hm) O1) as [Hb Ho].
  rewrite app_assoc in H. destruct (found_path _ _ _ _ _ _ _ _ _ _ H) as [comps Hc].
  assert (Hw2 : walk (s_db s) 1 (comps ++ [n2]) c1).
  { pose proof H as H2. apply hist_last in H2 as (W0 & k0' & s' & o & sent & H0 & Hl & Hen & E & Es & Ee & -> & -> & ->). cbn [ev_s ev_q] in *. injection Ee as <-. destruct (hist_inv _ _ _ _ H0) as (HF0 & _). pose proof (kdir_is_dir _ _ _ _ HF0 (proj1 Hl)) as Hd.
    eapply twalk_walk; [eapply hist_Inv; exact H|]. eapply (lookup_twalk _ _ _ _ _ _ _ _ _ a2); [exact H0|exact Hl|exact Hen|eapply walk_twalk; [eapply hist_Inv; exact H0|exact Hc|exact Hd]|]. exists o. split; assumption. }
  destruct (goes_pathkeeps _ _ _ _ _ _ _ HG _ He) as [_ Hback]. pose proof (Hback _ _ Hb Hw2) as Hwe. rewrite (Ho _ Hwe) in Hwe. pose proof (hist_Inv _ _ _ _ He) as Hie. destruct (walk_has _ _ _ _ Hie Hwe) as (_ & _ & a & Ha).
  rewrite app_assoc in He. destruct (believed_total ((h ++ [Ev s1 (QLookup b1 p1 n) [REntry c1 a1]]) ++ mid1) names n) as [o Hbel].
  assert (HB : believed (((h ++ [Ev s1 (QLookup b1 p1 n) [REntry c1 a1]]) ++ mid1) ++ [e]) names n None).
  { destruct (denies_path_or (ev_s e) (ev_q e) names S_IFDIR) as [Hd|Hd]; [apply bel_void; exact Hd|]. destruct Hgone as [Hd'|Hgone]; [contradiction|]. pose proof (bel_word _ e _ _ _ Hbel Hd) as HB. rewrite Hgone in HB. exact HB. }
  apply (believed_holds _ _ _ _ HB Hs Hv _ _ _ He) in Ha. discriminate.
Qed.
Print Assumptions C84_gone.

(** ** Samples *)
(** /d/f is looked up; the kernel forgets it, the daemon is restarted, /d is looked up while the
    backend is disconnected, /f in between, and then /d/f, which has grown. *)
Definition qs84 : list request := [QLookup online 1 nD; QLookup online 2 nF; QForget 3 1; QRestart rootA; QLookup offline 1 nD; QLookup online 1 nF; QLookup changed 2 nF].
Definition h84 : list event := sH qs84.
Definition e84 : event := Ev s_start (QForget 0 0) [].
Lemma hist84 : hist (sW qs84) (sS qs84) (sK qs84) h84. Proof. apply sess_hist. qs_ok. Qed.
Lemma cut7 {A} (l : list A) (d : A) : length l = 7%nat -> l = (take 1 l ++ [nth 1 l d]) ++ (take 4 (drop 2 l) ++ [nth 6 l d]).
Proof. intros H. do 7 (destruct l as [|? l]; [discriminate H|]). destruct l; [reflexivity|discriminate H]. Qed.
Lemma event_eq e q l : ev_q e = q -> ev_sent e = l -> e = Ev (ev_s e) q l.
Proof. intros <- <-. destruct e. reflexivity. Qed.
Example C84_sample : exists a1 a2, let h := take 1 h84 in let e1 := nth 1 h84 e84 in let mid := take 4 (drop 2 h84) in let e2 := nth 6 h84 e84 in
  hist (sW qs84) (sS qs84) (sK qs84) ((h ++ [Ev (ev_s e1) (QLookup online 2 nF) [REntry 3 a1]]) ++ (mid ++ [Ev (ev_s e2) (QLookup changed 2 nF) [REntry 3 a2]])) /\
  known_as h 2 [nD] S_IFDIR /\ known_as ((h ++ [Ev (ev_s e1) (QLookup online 2 nF) [REntry 3 a1]]) ++ mid) 2 [nD] S_IFDIR /\
  (forall e, e ∈ mid ++ [Ev (ev_s e2) (QLookup changed 2 nF) [REntry 3 a2]] -> ~ denies_path (ev_s e) (ev_q e) ([nD] ++ [nF]) (ftype (a_mode a1))) /\
  a_size a1 = 20 /\ a_size a2 = 21.
Proof.
  exists (from_backend_stat (fileA 20)), (from_backend_stat (fileA 21)). cbv zeta.
  assert (E1 : nth 1 h84 e84 = Ev (ev_s (nth 1 h84 e84)) (QLookup online 2 nF) [REntry 3 (from_backend_stat (fileA 20))]) by (apply event_eq; vm_compute; reflexivity).
  assert (E2 : nth 6 h84 e84 = Ev (ev_s (nth 6 h84 e84)) (QLookup changed 2 nF) [REntry 3 (from_backend_stat (fileA 21))]) by (apply event_eq; vm_compute; reflexivity).
  rewrite <- E1, <- E2. split; [rewrite <- cut7 by (vm_compute; reflexivity); exact hist84|].
  split; [apply known_ok; apply (bool_decide_eq_true_1 _); vm_compute; reflexivity|]. split; [apply known_ok; apply (bool_decide_eq_true_1 _); vm_compute; reflexivity|].
  split; [apply undenied_ok; vm_compute; reflexivity|]. split; vm_compute; reflexivity.
Qed.
(** /f is there, gone, and back: numbers 2 and 3. *)
Definition qs84g : list request := [QLookup online 1 nF; QLookup changed 1 nF; QLookup online 1 nF].
Lemma cut3 {A} (l : list A) (d : A) : length l = 3%nat -> l = (([] ++ [nth 0 l d]) ++ [] ++ [nth 1 l d]) ++ ([] ++ [nth 2 l d]).
Proof. intros H. do 3 (destruct l as [|? l]; [discriminate H|]). destruct l; [reflexivity|discriminate H]. Qed.
Example C84_gone_sample : exists a1 a2, let l := sH qs84g in let e1 := nth 0 l e84 in let e := nth 1 l e84 in let e2 := nth 2 l e84 in
  hist (sW qs84g) (sS qs84g) (sK qs84g) ((([] ++ [Ev (ev_s e1) (QLookup online 1 nF) [REntry 2 a1]]) ++ [] ++ [e]) ++ ([] ++ [Ev (ev_s e2) (QLookup online 1 nF) [REntry 3 a2]])) /\
  known_as [] 1 [] S_IFDIR /\ word_of (ev_s e) (ev_q e) [] nF = IsGone.
Proof.
  exists (from_backend_stat (fileA 10)), (from_backend_stat (fileA 10)). cbv zeta.
  assert (E1 : nth 0 (sH qs84g) e84 = Ev (ev_s (nth 0 (sH qs84g) e84)) (QLookup online 1 nF) [REntry 2 (from_backend_stat (fileA 10))]) by (apply event_eq; vm_compute; reflexivity).
  assert (E2 : nth 2 (sH qs84g) e84 = Ev (ev_s (nth 2 (sH qs84g) e84)) (QLookup online 1 nF) [REntry 3 (from_backend_stat (fileA 10))]) by (apply event_eq; vm_compute; reflexivity).
  rewrite <- E1, <- E2. split; [rewrite <- cut3 by (vm_compute; reflexivity); apply sess_hist; qs_ok|]. split; [constructor|]. vm_compute. reflexivity.
Qed.
