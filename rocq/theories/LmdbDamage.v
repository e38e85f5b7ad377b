(** The reads and the opening of Lmdb.v on tables with any contents: specification and lemmas for
    PropsDamage.v (C73).  Nothing is assumed about keys and records but that they are bytes. *)
From Coq Require Import Sorted.
From Verif Require Export Lmdb.
From Verif Require Import PropsCodec CacheFacts LmdbRel.

(** ** Specification *)
(** every key and every record is a string of bytes *)
Definition real (m : table) : Prop := forall k v, m !! k = Some v -> is_bytes k /\ is_bytes v.
Definition real_db (b : bdb) : Prop := real (b_inodes b) /\ real (b_treei b) /\ real (b_treen b).
(** what the inode record of [x] says: nothing is stored, it is unreadable, or these 96 bytes *)
Inductive record_says (b : bdb) (x : Z) : res inode -> Prop :=
| says_absent : b_inodes b !! le64 x = None -> record_says b x (Err ENOENT)
| says_garbage v : b_inodes b !! le64 x = Some v -> malformed 96 v -> record_says b x (Err EINVAL)
| says v i r0 r2 pad : b_inodes b !! le64 x = Some v -> ~ malformed 96 v -> take 96 v = ser_inode r0 r2 pad i -> inode_ok i -> record_says b x (Ok i).
Definition on_ok {A B} (f : A -> B) (r : res A) : res B := match r with Ok a => Ok (f a) | Err e => Err e end.
(** [k] is the first key from [lo] on for which [P] *)
Definition first_from (m : table) (lo : bytes) (P : bytes -> Prop) (k : bytes) (v : bytes) : Prop :=
  m !! k = Some v /\ ble lo k /\ P k /\ forall k' v', m !! k' = Some v' -> ble lo k' -> P k' -> ble k k'.
(** an entry of the name tree that ends a scan for [n] in [p]: the one that is looked for, or one of
    another directory, with a name of the same length *)
Definition settles (p : Z) (n k : bytes) : Prop := length k = (8 + length n)%nat /\ (k = le64 p ++ n \/ take 8 k <> le64 p).
Definition bad_entry (k v : bytes) : Prop := (length k < 8)%nat \/ malformed 16 v.
(** one step up in the tree: parent(x) and name(p, x) both have a value *)
Definition step_up (b : bdb) (x p : Z) (n : bytes) : Prop := b_parent b x = Done (Ok p) /\ b_name_in b p x = Done (Ok n).
(** the root is reached from [x], and this is the path *)
Inductive climbs (b : bdb) : Z -> bytes -> Prop :=
| climb_root x n : step_up b x ROOT_INO n -> climbs b x (47 :: n)
| climb_on x p n s : step_up b x p n -> p <> ROOT_INO -> climbs b p s -> climbs b x (s ++ 47 :: n).
(** [k] steps up are possible without reaching the root *)
Fixpoint rises (b : bdb) (x : Z) (k : nat) : Prop :=
  match k with O => True | S k => exists p n, step_up b x p n /\ p <> ROOT_INO /\ rises b p k end.

(** ** Records *)
Lemma malformed_dec s v : {malformed s v} + {~ malformed s v}.
Proof.
  unfold malformed. destruct v as [|x v]; [left; auto|]. destruct (Z.eq_dec x 1) as [->|Hx]; [|left; right; left; eauto].
  destruct (lt_dec (length (1 :: v)) s); [left; auto|]. right. intros [H|[(y & w & E & Hy)|H]]; [discriminate H|injection E as <- _; auto|contradiction].
Qed.
Lemma record_total b x : real (b_inodes b) -> exists r, record_says b x r /\ (match b_inodes b !! le64 x with None => r = Err ENOENT | Some v => parse_inode 0 v = Done r end).
Proof.
  intros Hr. destruct (b_inodes b !! le64 x) as [v|] eqn:E.
  - destruct (Hr _ _ E) as [_ Hv]. destruct (C30_inode_parse_exact 0 v Hv) as [[H1 H2]|[(_ & H & _)|(H1 & _ & i & r0 & r2 & pad & H2 & H3 & H4)]].
    + exists (Err EINVAL). split; [eapply says_garbage; eassumption|exact H2].
    + destruct H. reflexivity.
    + exists (Ok i). split; [eapply says; try eassumption; symmetry; exact H4|exact H2].
  - exists (Err ENOENT). split; [apply says_absent, E|reflexivity].
Qed.
Lemma parent_says b x : real (b_inodes b) -> x <> ROOT_INO -> exists r, record_says b x r /\ b_parent b x = Done (on_ok i_parent r).
Proof.
  intros Hr Hx. destruct (record_total b x Hr) as (r & Hs & He). exists r. split; [exact Hs|]. unfold b_parent. destruct (Z.eqb_spec x ROOT_INO); [contradiction|].
  destruct (b_inodes b !! le64 x) as [v|]; [|subst r; reflexivity]. rewrite He. destruct r; reflexivity.
Qed.
Lemma dirent_reads v : is_bytes v -> parse_dirent v = if malformed_dec 16 v then Err EINVAL else parse_dirent v.
Proof. intros Hv. destruct (C31_direntry_parse_exact v Hv) as [[H1 H2]|(H1 & _)]; destruct (malformed_dec 16 v); try contradiction; [exact H2|reflexivity]. Qed.
Lemma dirent_ok_iff v : is_bytes v -> (exists e, parse_dirent v = Ok e) <-> ~ malformed 16 v.
Proof.
  intros Hv. destruct (C31_direntry_parse_exact v Hv) as [[H1 H2]|(H1 & e & r0 & H2 & _)]; [|split; eauto].
  split; [intros [e He]; rewrite H2 in He; discriminate He|contradiction].
Qed.
(** ** Cursors *)
Lemma cursor_elem m lo k v : (k, v) ∈ cursor m lo <-> m !! k = Some v /\ ble lo k.
Proof. apply (elem_of_from (fun k => k)). Qed.
Lemma sorted_split {A} (R : A -> A -> Prop) l1 x l2 : StronglySorted R (l1 ++ x :: l2) -> Forall (fun y => R y x) l1 /\ Forall (R x) l2.
Proof.
  induction l1 as [|y l1 IH]; cbn; intros H; apply StronglySorted_inv in H as [H1 H2].
  - split; [constructor|exact H2].
  - destruct (IH H1) as [I1 I2]. split; [|exact I2]. constructor; [|exact I1]. rewrite Forall_forall in H2. apply H2. set_solver.
Qed.
Lemma cursor_split m lo l1 k v l2 : cursor m lo = l1 ++ (k, v) :: l2 ->
  m !! k = Some v /\ ble lo k /\ (forall k' v', (k', v') ∈ l1 <-> m !! k' = Some v' /\ ble lo k' /\ blt k' k) /\
  (forall k' v', (k', v') ∈ l2 <-> m !! k' = Some v' /\ ble lo k' /\ blt k k').
Proof.
  intros E. assert (Hk : (k, v) ∈ cursor m lo) by (rewrite E; set_solver). apply cursor_elem in Hk as [Hk1 Hk2].
  pose proof (from_sorted (fun k : bytes => k) m lo) as Hs. fold (cursor m lo) in Hs. rewrite E in Hs. apply sorted_split in Hs as [Hs1 Hs2].
  assert (Hnd : NoDup (cursor m lo).*1) by (unfold cursor, from_key; apply NoDup_fst_filter, (NoDup_entries (fun k : bytes => k))).
  rewrite E, fmap_app, fmap_cons in Hnd. cbn [fst] in Hnd. apply NoDup_app in Hnd as (_ & Hnd1 & Hnd2). apply NoDup_cons in Hnd2 as [Hnd2 _].
  assert (F1 : forall k' v', (k', v') ∈ l1 -> blt k' k).
  { intros k' v' H. rewrite Forall_forall in Hs1. specialize (Hs1 _ H). unfold kle in Hs1. cbn [fst] in Hs1. apply ble_lt_eq in Hs1 as [L|L]; [exact L|subst k'].
    exfalso. apply (Hnd1 k); [|left]. apply elem_of_list_fmap. exists (k, v'). auto. }
  assert (F2 : forall k' v', (k', v') ∈ l2 -> blt k k').
  { intros k' v' H. rewrite Forall_forall in Hs2. specialize (Hs2 _ H). unfold kle in Hs2. cbn [fst] in Hs2. apply ble_lt_eq in Hs2 as [L|L]; [exact L|subst k'].
    exfalso. apply Hnd2. apply elem_of_list_fmap. exists (k, v'). auto. }
  assert (M : forall k' v', (k', v') ∈ l1 \/ (k', v') = (k, v) \/ (k', v') ∈ l2 <-> m !! k' = Some v' /\ ble lo k').
  { intros k' v'. rewrite <- cursor_elem, E. set_solver. }
  split; [exact Hk1|]. split; [exact Hk2|]. split; intros k' v'; split.
  - intros H. destruct (proj1 (M k' v')) as [? ?]; [auto|]. eauto.
  - intros (H1 & H2 & H3). destruct (proj2 (M k' v')) as [H|[H|H]]; [auto|exact H| |].
    + injection H as -> ->. destruct (blt_irrefl _ H3).
    + exfalso. apply (blt_irrefl k). eapply blt_trans; [eapply F2, H|exact H3].
  - intros H. destruct (proj1 (M k' v')) as [? ?]; [auto|]. eauto.
  - intros (H1 & H2 & H3). destruct (proj2 (M k' v')) as [H|[H|H]]; [auto| | |exact H].
    + exfalso. apply (blt_irrefl k). eapply blt_trans; [exact H3|eapply F1, H].
    + injection H as -> ->. destruct (blt_irrefl _ H3).
Qed.
Lemma cursor_at m lo k v : m !! k = Some v -> ble lo k -> exists l1 l2, cursor m lo = l1 ++ (k, v) :: l2.
Proof. intros H1 H2. apply elem_of_list_split, cursor_elem. auto. Qed.
(** what lies between a prefix and a key that has it, has it *)
Lemma between a : forall k n, ble a k -> blt k (a ++ n) -> exists m, k = a ++ m /\ blt m n.
Proof.
  induction a as [|x a IH]; intros k n H1 H2; [exists k; auto|]. destruct k as [|y k]; [destruct H1; reflexivity|]. unfold ble, blt in *. cbn [app bcmp] in *.
  rewrite (Z.compare_antisym x y) in H2. destruct (x ?= y) eqn:E; cbn [CompOpp] in H2.
  - apply Z.compare_eq in E as ->. destruct (IH k n H1 H2) as (m & -> & H). eauto.
  - discriminate H2.
  - destruct (H1 eq_refl).
Qed.
(** ** lookup *)
Definition skips (p : Z) (n : bytes) (x : bytes * bytes) : Prop := ~ bad_entry x.1 x.2 /\ ~ settles p n x.1.
Lemma take8_of p k : is_bytes k -> u64 p -> (8 <= length k)%nat -> (unle (take 8 k) = p <-> take 8 k = le64 p).
Proof.
  intros Hk Hp Hl. split.
  - intros <-. pose proof (le_unle (take 8 k) (take_bytes 8 k Hk)) as H. rewrite take_length, Nat.min_l in H by lia. symmetry. exact H.
  - intros ->. apply unle_le64, Hp.
Qed.
Lemma key_of p n k : (8 <= length k)%nat -> take 8 k = le64 p -> (drop 8 k = n <-> k = le64 p ++ n).
Proof. intros Hl Ht. split; [intros <-; rewrite <- Ht, take_drop; reflexivity|intros ->; apply drop8]. Qed.
Lemma scan_step p n k v l : is_bytes k -> is_bytes v -> u64 p ->
  b_lookup_scan p n ((k, v) :: l) =
    if decide (length k < 8)%nat then Crash
    else if malformed_dec 16 v then Crash
    else if decide (length k = 8 + length n)%nat then
      if decide (take 8 k = le64 p) then if decide (k = le64 p ++ n) then Done (match parse_dirent v with Ok e => Ok (de_ino e) | Err e => Err e end) else b_lookup_scan p n l
      else Done (Err ENOENT)
    else b_lookup_scan p n l.
Proof.
  intros Hk Hv Hp. cbn [b_lookup_scan]. destruct (Nat.ltb_spec (length k) 8); [rewrite (decide_True (P := (length k < 8)%nat)) by assumption; reflexivity|]. rewrite (decide_False (P := (length k < 8)%nat)) by lia.
  rewrite (dirent_reads v Hv). destruct (malformed_dec 16 v) as [|Hm]; [reflexivity|]. apply (dirent_ok_iff v Hv) in Hm as [e ->].
  destruct (Nat.eqb_spec (length k - 8) (length n)) as [El|El]; cbn [negb]; [rewrite (decide_True (P := length k = (8 + length n)%nat)) by lia|rewrite (decide_False (P := length k = (8 + length n)%nat)) by lia; reflexivity].
  destruct (Z.eqb_spec (unle (take 8 k)) p) as [Ep|Ep]; cbn [negb]; rewrite (take8_of p k Hk Hp H) in Ep; [rewrite (decide_True _ _ Ep)|rewrite (decide_False _ _ Ep); reflexivity].
  destruct (decide (drop 8 k = n)) as [En|En]; rewrite (key_of p n k H Ep) in En; [rewrite (decide_True _ _ En)|rewrite (decide_False _ _ En)]; reflexivity.
Qed.
Lemma scan_skip p n l1 l2 : Forall (fun x => is_bytes x.1 /\ is_bytes x.2) l1 -> u64 p -> Forall (skips p n) l1 -> b_lookup_scan p n (l1 ++ l2) = b_lookup_scan p n l2.
Proof.
  intros Hb Hp H. induction H as [|[k v] l1 [H1 H2] H IH]; [reflexivity|]. apply Forall_cons in Hb as [[Hk Hv] Hb]. cbn [fst snd] in *. cbn [app]. rewrite scan_step by assumption.
  unfold bad_entry in H1. rewrite decide_False by tauto. destruct (malformed_dec 16 v); [tauto|]. unfold settles in H2.
  case_decide as E1; [|apply IH, Hb]. case_decide as E2; [|tauto]. case_decide as E3; [tauto|apply IH, Hb].
Qed.
Inductive scan_end (p : Z) (n : bytes) (l : list (bytes * bytes)) : outcome (res Z) -> Prop :=
| se_none : Forall (skips p n) l -> scan_end p n l (Done (Err ENOENT))
| se_bad l1 k v l2 : l = l1 ++ (k, v) :: l2 -> Forall (skips p n) l1 -> bad_entry k v -> scan_end p n l Crash
| se_hit l1 k v l2 e : l = l1 ++ (k, v) :: l2 -> Forall (skips p n) l1 -> ~ bad_entry k v -> k = le64 p ++ n -> parse_dirent v = Ok e -> scan_end p n l (Done (Ok (de_ino e)))
| se_other l1 k v l2 : l = l1 ++ (k, v) :: l2 -> Forall (skips p n) l1 -> ~ bad_entry k v -> settles p n k -> k <> le64 p ++ n -> scan_end p n l (Done (Err ENOENT)).
Lemma scan_ends p n l : Forall (fun x => is_bytes x.1 /\ is_bytes x.2) l -> u64 p -> scan_end p n l (b_lookup_scan p n l).
Proof.
  intros Hb Hp. induction l as [|[k v] l IH]; [apply se_none; constructor|]. apply Forall_cons in Hb as [[Hk Hv] Hb]. cbn [fst snd] in *. rewrite scan_step by assumption.
  assert (Hcont : skips p n (k, v) -> scan_end p n ((k, v) :: l) (b_lookup_scan p n l)).
  { intros Hs. specialize (IH Hb). destruct IH as [H|l1 k' v' l2 E H H1|l1 k' v' l2 e E H H1 H2 H3|l1 k' v' l2 E H H1 H2 H3].
    - apply se_none. constructor; assumption.
    - apply (se_bad _ _ _ ((k, v) :: l1) k' v' l2); [rewrite E; reflexivity|constructor; assumption|assumption].
    - apply (se_hit _ _ _ ((k, v) :: l1) k' v' l2 e); [rewrite E; reflexivity|constructor; assumption| | |]; assumption.
    - apply (se_other _ _ _ ((k, v) :: l1) k' v' l2); [rewrite E; reflexivity|constructor; assumption| | |]; assumption. }
  case_decide as E0; [apply (se_bad _ _ _ [] k v l); [reflexivity|constructor|left; exact E0]|].
  destruct (malformed_dec 16 v) as [Hm|Hm]; [apply (se_bad _ _ _ [] k v l); [reflexivity|constructor|right; exact Hm]|].
  assert (Hg : ~ bad_entry k v) by (unfold bad_entry; tauto).
  case_decide as E1; [|apply Hcont; split; [exact Hg|unfold settles; cbn [fst]; tauto]].
  case_decide as E2.
  - case_decide as E3; [|apply Hcont; split; [exact Hg|unfold settles; cbn [fst]; tauto]]. apply (dirent_ok_iff v Hv) in Hm as [e He]. rewrite He. eapply (se_hit _ _ _ [] k v l e); try assumption; [reflexivity|constructor].
  - apply (se_other _ _ _ [] k v l); [reflexivity|constructor|exact Hg|split; [exact E1|right; exact E2]|]. intros ->. apply E2, take8.
Qed.
Lemma cursor_bytes m lo : real m -> Forall (fun x => is_bytes x.1 /\ is_bytes x.2) (cursor m lo).
Proof. intros Hr. apply Forall_forall. intros [k v] H. apply cursor_elem in H as [H _]. apply (Hr _ _ H). Qed.
(** ** readdir *)
Lemma first_cursor m lo : match cursor m lo with
  | [] => forall k v, m !! k = Some v -> ~ ble lo k
  | (k, v) :: l => first_from m lo (fun _ => True) k v /\ match l with
     | [] => forall k' v', m !! k' = Some v' -> ble lo k' -> k' = k
     | (k2, v2) :: _ => first_from m lo (fun x => x <> k) k2 v2 end
  end.
Proof.
  destruct (cursor m lo) as [|[k v] l] eqn:E.
  - intros k v H1 H2. assert (H : (k, v) ∈ cursor m lo) by (apply cursor_elem; auto). rewrite E in H. inversion H.
  - destruct (cursor_split m lo [] k v l E) as (H1 & H2 & H3 & H4). assert (Hmin : forall k' v', m !! k' = Some v' -> ble lo k' -> ble k k').
    { intros k' v' A B. destruct (decide (ble k k')) as [|N]; [assumption|]. apply not_ble in N. assert (X : (k', v') ∈ []) by (apply H3; auto). inversion X. }
    split; [unfold first_from; split_and!; auto; intros; eauto|].
    destruct l as [|[k2 v2] l].
    + intros k' v' A B. specialize (Hmin _ _ A B). apply ble_lt_eq in Hmin as [L|L]; [|auto]. assert (X : (k', v') ∈ []) by (apply H4; auto). inversion X.
    + destruct (cursor_split m lo [(k, v)] k2 v2 l E) as (I1 & I2 & I3 & I4). assert (Hlt : blt k k2) by (apply (I3 k v); left).
      unfold first_from. split_and!; auto; [intros ->; apply (blt_irrefl _ Hlt)|]. intros k' v' A B N. destruct (decide (ble k2 k')) as [|N2]; [assumption|]. apply not_ble in N2.
      assert (X : (k', v') ∈ [(k, v)]) by (apply I3; auto). apply elem_of_list_singleton in X. injection X as -> _. contradiction.
Qed.
Lemma key16 d c k : is_bytes k -> u64 d -> u64 c -> length k = 16%nat -> (unle (take 8 k) = d /\ unle (drop 8 k) = c <-> k = le64 d ++ le64 c).
Proof.
  intros Hk Hd Hc Hl. rewrite (take8_of d k Hk Hd) by lia. split.
  - intros [H1 H2]. rewrite <- (take_drop 8 k), H1. f_equal. pose proof (le_unle (drop 8 k) (drop_bytes 8 k Hk)) as H. rewrite drop_length, Hl, H2 in H. symmetry. exact H.
  - intros ->. rewrite take8, drop8, (unle_le64 c Hc). auto.
Qed.
(** ** path *)
Lemma step_up_det b x p n p' n' : step_up b x p n -> step_up b x p' n' -> p = p' /\ n = n'.
Proof. intros [H1 H2] [H3 H4]. rewrite H1 in H3. injection H3 as <-. rewrite H2 in H4. injection H4 as <-. auto. Qed.
(** the climb ends after [m] steps: at the root, or with an error *)
Inductive ends (b : bdb) : Z -> nat -> Prop :=
| end_here x : x <> ROOT_INO -> (forall p n, ~ step_up b x p n) -> ends b x 0
| end_root x n : x <> ROOT_INO -> step_up b x ROOT_INO n -> ends b x 1
| end_on x p n m : x <> ROOT_INO -> step_up b x p n -> p <> ROOT_INO -> ends b p m -> ends b x (S m).
Lemma ends_fun b x m m' : ends b x m -> ends b x m' -> m = m'.
Proof.
  intros H. revert m'. induction H as [x Hx H|x n Hx H|x p n m Hx H Hp HI IH]; intros m' H'; inversion H' as [y Hy G|y n' Hy G|y p' n' m1 Hy G Hp' GI]; subst.
  - reflexivity.
  - destruct (H _ _ G).
  - destruct (H _ _ G).
  - destruct (G _ _ H).
  - reflexivity.
  - destruct (step_up_det _ _ _ _ _ _ H G) as [<- _]. contradiction.
  - destruct (G _ _ H).
  - destruct (step_up_det _ _ _ _ _ _ H G) as [-> _]. contradiction.
  - destruct (step_up_det _ _ _ _ _ _ H G) as [<- _]. f_equal. apply IH, GI.
Qed.
Lemma parent_record b x p : b_parent b x = Done (Ok p) -> x <> ROOT_INO -> real (b_inodes b) -> is_Some (b_inodes b !! le64 x) /\ u64 p.
Proof.
  intros H Hx Hr. destruct (parent_says b x Hr Hx) as (r & Hs & E). rewrite E in H. destruct Hs as [H0|v H0 Hm|v i r0 r2 pad H0 Hm Ht Hok]; cbn [on_ok] in H; try discriminate H.
  injection H as <-. split; [eauto|]. apply Hok.
Qed.
Lemma ends_visit b x m : real (b_inodes b) -> u64 x -> ends b x m ->
  exists l, length l = m /\ NoDup l /\ Forall (fun y => u64 y /\ is_Some (b_inodes b !! le64 y) /\ exists j, (j <= m)%nat /\ ends b y j) l.
Proof.
  intros Hr Hu H. revert Hu. induction H as [x Hx H|x n Hx H|x p n m Hx H Hp HI IH]; intros Hu.
  - exists []. split_and!; [reflexivity|constructor|constructor].
  - exists [x]. split_and!; [reflexivity|apply NoDup_singleton|]. constructor; [|constructor]. destruct (parent_record b x _ (proj1 H) Hx Hr) as [Hs _]. split; [exact Hu|]. split; [exact Hs|].
    exists 1%nat. split; [lia|]. eapply end_root; eassumption.
  - destruct (parent_record b x p (proj1 H) Hx Hr) as [Hs Hpu]. destruct (IH Hpu) as (l & L1 & L2 & L3). exists (x :: l). assert (Hex : ends b x (S m)) by (eapply end_on; eassumption).
    split_and!; [cbn; lia| |].
    + constructor; [|exact L2]. intros Hin. rewrite Forall_forall in L3. destruct (L3 _ Hin) as (_ & _ & j & Hj & Hej). pose proof (ends_fun _ _ _ _ Hex Hej). lia.
    + constructor; [split; [exact Hu|]; split; [exact Hs|exists (S m); auto]|]. eapply Forall_impl; [exact L3|]. intros y (A & B & j & C & D). split; [exact A|]. split; [exact B|]. exists j. split; [lia|exact D].
Qed.
Lemma ends_bound b x m : real (b_inodes b) -> u64 x -> ends b x m -> (m <= size (b_inodes b))%nat.
Proof.
  intros Hr Hu H. destruct (ends_visit b x m Hr Hu H) as (l & <- & Hnd & Hl). rewrite <- (map_length le64), <- size_dom.
  assert (Hl' : Forall (fun y => u64 y) l) by (eapply Forall_impl; [exact Hl|intros y A; apply A]).
  assert (Hn : NoDup (map le64 l)).
  { clear H Hl. induction Hnd as [|y l Hy Hnd IH]; [constructor|]. apply Forall_cons in Hl' as [Hl1 Hl]. cbn [map]. constructor; [|apply IH, Hl]. intros Hin. apply elem_of_list_fmap in Hin as (z & E & Hz).
    rewrite Forall_forall in Hl. apply le64_inj in E; [subst; contradiction|apply Hl1|apply (Hl _ Hz)]. }
  rewrite <- (size_list_to_set (C := gset bytes) _ Hn). apply subseteq_size. intros k Hk. apply elem_of_list_to_set, elem_of_list_fmap in Hk as (z & -> & Hz).
  rewrite Forall_forall in Hl. apply elem_of_dom, (Hl _ Hz).
Qed.
Lemma parent_returns b x : real (b_inodes b) -> exists r, b_parent b x = Done r.
Proof. intros Hr. destruct (Z.eq_dec x ROOT_INO) as [->|Hx]; [eexists; reflexivity|]. destruct (parent_says b x Hr Hx) as (r & _ & ->). eauto. Qed.
Lemma name_returns b p x : exists r, b_name_in b p x = Done r.
Proof. unfold b_name_in. destruct (_ || _); [eauto|]. destruct (b_treei b !! _); eauto. Qed.
Lemma rises_or_ends b : real (b_inodes b) -> forall k x, x <> ROOT_INO -> rises b x k \/ exists m, (m <= k)%nat /\ ends b x m.
Proof.
  intros Hr. induction k as [|k IH]; intros x Hx; [left; exact I|]. destruct (parent_returns b x Hr) as [[p|e] Ep].
  2: { right. exists 0%nat. split; [lia|]. apply end_here; [exact Hx|]. intros p n [H _]. rewrite Ep in H. discriminate H. }
  destruct (name_returns b p x) as [[n|e] En].
  2: { right. exists 0%nat. split; [lia|]. apply end_here; [exact Hx|]. intros p' n' [H G]. rewrite Ep in H. injection H as <-. rewrite En in G. discriminate G. }
  assert (Hs : step_up b x p n) by (split; assumption). destruct (Z.eq_dec p ROOT_INO) as [->|Hp].
  - right. exists 1%nat. split; [lia|]. eapply end_root; eassumption.
  - destruct (IH p Hp) as [H|(m & Hm & H)]; [left; cbn; eauto|]. right. exists (S m). split; [lia|]. eapply end_on; eassumption.
Qed.
Lemma ends_not_rises b x m : ends b x m -> ~ rises b x (S m).
Proof.
  induction 1 as [x Hx H|x n Hx H|x p n m Hx H Hp HI IH]; intros R; cbn [rises] in R; destruct R as (q & n' & G & Hq & R).
  - destruct (H _ _ G).
  - destruct (step_up_det _ _ _ _ _ _ H G) as [<- _]. contradiction.
  - destruct (step_up_det _ _ _ _ _ _ H G) as [<- _]. apply (IH R).
Qed.
Lemma loop_ends b x m : ends b x m -> forall fuel buf, (m < fuel)%nat ->
  (exists s, climbs b x s /\ b_path_loop fuel b x buf = Done (Ok (s ++ rev buf))) \/
  (exists e, b_path_loop fuel b x buf = Done (Err e)) /\ (forall s, ~ climbs b x s) \/
  b_path_loop fuel b x buf <> Diverge /\ (forall r, b_path_loop fuel b x buf <> Done r) /\ (forall s, ~ climbs b x s).
Proof.
  induction 1 as [x Hx H|x n Hx H|x p n m Hx H Hp HI IH]; intros fuel buf Hf; (destruct fuel as [|fuel]; [lia|]); cbn [b_path_loop].
  - assert (Hnc : forall s, ~ climbs b x s) by (intros s Hc; inversion Hc; eapply H; eassumption).
    destruct (b_parent b x) as [[p|e]| | |] eqn:Ep; cbn [obind].
    + destruct (b_name_in b p x) as [[n|e]| | |] eqn:En; cbn [obind].
      * destruct (H p n). split; assumption.
      * right; left. split; [eauto|exact Hnc].
      * right; right. split_and!; [discriminate|discriminate|exact Hnc].
      * right; right. split_and!; [discriminate|discriminate|exact Hnc].
      * exfalso. unfold b_name_in in En. destruct (_ || _) in En; [discriminate En|]. destruct (b_treei b !! _) in En; discriminate En.
    + right; left. split; [eauto|exact Hnc].
    + right; right. split_and!; [discriminate|discriminate|exact Hnc].
    + right; right. split_and!; [discriminate|discriminate|exact Hnc].
    + exfalso. unfold b_parent in Ep. destruct (_ =? _) in Ep; [discriminate Ep|]. destruct (b_inodes b !! _) as [v|] in Ep; [|discriminate Ep].
      unfold parse_inode in Ep. destruct v as [|v w]; [discriminate Ep|]. destruct (negb _) in Ep; [discriminate Ep|]. destruct (_ <? _)%nat in Ep; [discriminate Ep|]. cbn in Ep. discriminate Ep.
  - left. exists (47 :: n). split; [apply climb_root, H|]. destruct H as [H1 H2]. rewrite H1. cbn [obind]. rewrite H2. cbn [obind]. rewrite Z.eqb_refl. do 2 f_equal. rewrite !rev_app_distr, rev_involutive. reflexivity.
  - destruct H as [H1 H2]. rewrite H1. cbn [obind]. rewrite H2. cbn [obind]. destruct (Z.eqb_spec p ROOT_INO); [contradiction|].
    assert (Hup : step_up b x p n) by (split; assumption).
    assert (Hnc : (forall s, ~ climbs b p s) -> forall s, ~ climbs b x s).
    { intros Hn s Hc. inversion Hc as [y n' G|y q n' s' G Hq Hs]; subst; destruct (step_up_det _ _ _ _ _ _ Hup G) as [E _]; [contradiction|]. subst q. apply (Hn _ Hs). }
    destruct (IH fuel ((buf ++ rev n) ++ [47]) ltac:(lia)) as [(s & Hs & E)|[(He & Hn)|(A & B & Hn)]].
    + left. exists (s ++ 47 :: n). split; [eapply climb_on; eassumption|]. rewrite E. do 2 f_equal. rewrite !rev_app_distr, rev_involutive. rewrite <- app_assoc. reflexivity.
    + right; left. auto.
    + right; right. auto.
Qed.
(** a readable entry: bytes 8 to 15 are the inode, from byte 16 on the name *)
Lemma dirent_fields v e : parse_dirent v = Ok e -> de_ino e = unle (take 8 (drop 8 v)) /\ de_name e = drop 16 v.
Proof.
  unfold parse_dirent. destruct v as [|x v]; [discriminate|]. destruct (negb _); [discriminate|]. destruct (_ <? _)%nat; [discriminate|]. unfold dirent_layout. cbn [cut map].
  intros E. injection E as <-. cbn [de_ino de_name]. split; [|reflexivity]. rewrite !drop_drop. reflexivity.
Qed.
