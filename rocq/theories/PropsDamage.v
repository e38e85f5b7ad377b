(** Property theorems C73: a damaged cache database.  The tables may hold anything: records of
    another version, cut off, altered, missing, under keys of any length. *)
From Coq Require Import Sorted.
From Verif Require Import LmdbDamage PropsCodec CacheFacts LmdbRel.

(** ** Reads of one record *)
(** getattr, parent and test_flag always return: what the 96 bytes of the record say, ENOENT without
    a record, EINVAL if it is too short or of another version.  Nothing else of the database matters. *)
Theorem C73_inode_reads : forall b x f, real_db b -> exists r, record_says b x r /\
  b_getattr b x = Done (on_ok i_attr r) /\ b_test_flag b x f = Done (on_ok (fun i => flag_test (i_flags i) f) r) /\
  b_parent b x = Done (if decide (x = ROOT_INO) then Ok ROOT_INO else on_ok i_parent r).
Proof.
  intros b x f (Hr & _). destruct (record_total b x Hr) as (r & Hs & He). exists r. split; [exact Hs|]. split_and!.
  - unfold b_getattr. destruct (b_inodes b !! le64 x) as [v|]; [|subst r; reflexivity]. rewrite He. destruct r; reflexivity.
  - unfold b_test_flag. destruct (b_inodes b !! le64 x) as [v|]; [|subst r; reflexivity]. rewrite He. destruct r; reflexivity.
  - unfold b_parent. destruct (Z.eqb_spec x ROOT_INO); [subst; rewrite decide_True by reflexivity; reflexivity|]. rewrite decide_False by assumption.
    destruct (b_inodes b !! le64 x) as [v|]; [|subst r; reflexivity]. rewrite He. destruct r; reflexivity.
Qed.
(** the same record cannot be read in two ways *)
Theorem C73_one_reading : forall b x r r', record_says b x r -> record_says b x r' -> r = r'.
Proof.
  intros b x r r' [E|v E M|v i r0 r2 pad E M T O] [E'|v' E' M'|v' i' r0' r2' pad' E' M' T' O']; rewrite E in E'; try discriminate E'; try (injection E' as <-); try reflexivity; try contradiction.
  f_equal. pose proof (parse_ser_inode 0 r0 r2 pad i [] O eq_refl) as P. pose proof (parse_ser_inode 0 r0' r2' pad' i' [] O' eq_refl) as P'.
  rewrite <- T in P. rewrite <- T', P in P'. injection P' as ->. reflexivity.
Qed.
(** name(p, x) and readlink: likewise *)
Theorem C73_name_reads : forall b p x, real_db b -> x <> ROOT_INO -> p <> INVALID_INO ->
  b_name_in b p x = Done (match b_treei b !! (le64 p ++ le64 x) with
                          | None => Err ENOENT | Some v => if malformed_dec 16 v then Err EINVAL else Ok (drop 16 v) end).
Proof.
  intros b p x (_ & Hr & _) Hx Hp. unfold b_name_in. destruct (Z.eqb_spec x ROOT_INO); [contradiction|]. destruct (Z.eqb_spec p INVALID_INO); [contradiction|]. cbn [orb].
  destruct (b_treei b !! _) as [v|] eqn:E; [|reflexivity]. destruct (Hr _ _ E) as [_ Hv]. destruct (C31_direntry_parse_exact v Hv) as [[H1 H2]|(H1 & e & r0 & H2 & _ & H3 & _)];
    destruct (malformed_dec 16 v); try contradiction; rewrite H2; [reflexivity|rewrite H3; reflexivity].
Qed.
(** damage to one inode record (or its loss) is seen at that inode only: every other inode's
    attributes, flags, parent and name, every lookup, and every listing of another directory are as before *)
Theorem C73_local : forall b x v y p n f prev, u64 x -> u64 y -> y <> x ->
  let b' := bset_inodes (match v with Some v => <[le64 x := v]> (b_inodes b) | None => delete (le64 x) (b_inodes b) end) b in
  b_getattr b' y = b_getattr b y /\ b_test_flag b' y f = b_test_flag b y f /\ b_parent b' y = b_parent b y /\ b_name_of b' y = b_name_of b y /\
  b_lookup b' p n = b_lookup b p n /\ b_readdir b' y prev = b_readdir b y prev /\ b_name_in b' p x = b_name_in b p x /\ b_readlink b' y = b_readlink b y.
Proof.
  intros b x v y p n f prev Hx Hy Hne b'. assert (Hl : b_inodes b' !! le64 y = b_inodes b !! le64 y).
  { assert (le64 x <> le64 y) by (intros E; apply le64_inj in E; auto). subst b'. destruct v; cbn [bset_inodes b_inodes]; [apply lookup_insert_ne|apply lookup_delete_ne]; assumption. }
  assert (Hp : b_parent b' y = b_parent b y) by (unfold b_parent; rewrite Hl; reflexivity).
  assert (Ht : b_treei b' = b_treei b) by reflexivity. assert (Htn : b_treen b' = b_treen b) by reflexivity. assert (Hk : b_links b' = b_links b) by reflexivity.
  clearbody b'. split_and!.
  - unfold b_getattr. rewrite Hl. reflexivity.
  - unfold b_test_flag. rewrite Hl. reflexivity.
  - exact Hp.
  - unfold b_name_of, b_name_in. rewrite Hp, Ht. reflexivity.
  - unfold b_lookup. rewrite Htn. reflexivity.
  - unfold b_readdir. rewrite Hp, Ht. reflexivity.
  - unfold b_name_in. rewrite Ht. reflexivity.
  - unfold b_readlink. rewrite Hl, Hk. reflexivity.
Qed.

(** ** lookup *)
(** A name is found exactly if its entry is there and can be read, and so can the entries of the same
    directory that come before it in key order. *)
Theorem C73_lookup_found : forall b p n i, real_db b -> u64 p -> p <> INVALID_INO -> (length n <= 503)%nat ->
  (b_lookup b p n = Done (Ok i) <->
   (exists v, b_treen b !! (le64 p ++ n) = Some v /\ ~ malformed 16 v /\ i = unle (take 8 (drop 8 v))) /\
   forall m v, b_treen b !! (le64 p ++ m) = Some v -> blt m n -> ~ malformed 16 v).
Proof.
  intros b p n i (_ & _ & Hr) Hp Hp0 Hn. unfold b_lookup, check_name, MAX_NAME. destruct (Z.ltb_spec (511 - 8) (Z.of_nat (length n))); [lia|]. cbn [negb].
  destruct (Z.eqb_spec p INVALID_INO); [contradiction|]. pose proof (cursor_bytes (b_treen b) (le64 p) Hr) as Hb. split.
  - intros E. pose proof (scan_ends p n _ Hb Hp) as S. rewrite E in S. inversion S as [| |l1 k v l2 e Es Hs Hg Ek He Ei|]; subst.
    destruct (cursor_split _ _ _ _ _ _ Es) as (H1 & H2 & H3 & H4). split.
    + exists v. split; [exact H1|]. split; [intros M; apply Hg; right; exact M|]. apply (dirent_fields v e He).
    + intros m v' Hv' Hlt M. assert (Hin : (le64 p ++ m, v') ∈ l1).
      { apply H3. split; [exact Hv'|]. split; [apply scan_before|]. unfold blt. rewrite bcmp_app by reflexivity. rewrite bcmp_refl. exact Hlt. }
      rewrite Forall_forall in Hs. destruct (Hs _ Hin) as [Hx _]. apply Hx. right. exact M.
  - intros [(v & Hv & Hm & ->) Hall]. destruct (proj2 (dirent_ok_iff v (proj2 (Hr _ _ Hv))) Hm) as [e He]. destruct (cursor_at _ (le64 p) _ _ Hv (scan_before p n)) as (l1 & l2 & Es). rewrite Es in Hb |- *. destruct (cursor_split _ _ _ _ _ _ Es) as (H1 & H2 & H3 & H4).
    apply Forall_app in Hb as [Hb1 Hb2]. rewrite scan_skip; [|exact Hb1|exact Hp|].
    + apply Forall_cons in Hb2 as [[Hk1 Hk2] _]. cbn [fst snd] in *. rewrite scan_step by assumption. rewrite app_length, le64_length. rewrite decide_False by lia. destruct (malformed_dec 16 v); [contradiction|].
      rewrite decide_True by reflexivity. rewrite take8. rewrite !decide_True by reflexivity. rewrite He, (proj1 (dirent_fields v e He)). reflexivity.
    + apply Forall_forall. intros [k v'] Hin. apply H3 in Hin as (A & B & C). destruct (LmdbDamage.between _ _ _ B C) as (m & -> & Hlt). split; cbn [fst snd].
      * intros [Hl|M]; [rewrite app_length, le64_length in Hl; lia|]. apply (Hall _ _ A Hlt M).
      * intros [_ [E|E]]; [|apply E, take8]. apply app_inv_head in E. subst. apply (blt_irrefl _ Hlt).
Qed.
(** An assertion of lookup fails exactly if there is an unreadable entry, in this directory or in one
    that comes later, and no entry before it ends the scan. *)
Theorem C73_lookup_crash : forall b p n, real_db b -> u64 p -> p <> INVALID_INO -> (length n <= 503)%nat ->
  (b_lookup b p n = Crash <-> exists k v, b_treen b !! k = Some v /\ ble (le64 p) k /\ bad_entry k v /\
     forall k' v', b_treen b !! k' = Some v' -> ble (le64 p) k' -> blt k' k -> ~ settles p n k').
Proof.
  intros b p n (_ & _ & Hr) Hp Hp0 Hn. unfold b_lookup, check_name, MAX_NAME. destruct (Z.ltb_spec (511 - 8) (Z.of_nat (length n))); [lia|]. cbn [negb].
  destruct (Z.eqb_spec p INVALID_INO); [contradiction|]. pose proof (cursor_bytes (b_treen b) (le64 p) Hr) as Hb. pose proof (scan_ends p n _ Hb Hp) as S. split.
  - intros E. rewrite E in S. inversion S as [|l1 k v l2 Es Hs Hbad| |]; subst. destruct (cursor_split _ _ _ _ _ _ Es) as (H1 & H2 & H3 & H4). exists k, v. split_and!; try assumption.
    intros k' v' A B C. assert (Hin : (k', v') ∈ l1) by (apply H3; auto). rewrite Forall_forall in Hs. apply (Hs _ Hin).
  - intros (k & v & Hk & Hlo & Hbad & Hall). inversion S as [Hs E|l1 k1 v1 l2 Es Hs Hb1 E|l1 k1 v1 l2 e Es Hs Hg Ek He E|l1 k1 v1 l2 Es Hs Hg Hst Ek E].
    + exfalso. rewrite Forall_forall in Hs. destruct (Hs (k, v)) as [Hx _]; [apply cursor_elem; auto|exact (Hx Hbad)].
    + reflexivity.
    + exfalso. destruct (cursor_split _ _ _ _ _ _ Es) as (H1 & H2 & H3 & H4). destruct (ble_total k1 k) as [L|L]; apply ble_lt_eq in L as [L|L].
      * apply (Hall k1 v1 H1 H2 L). split; [rewrite Ek, app_length, le64_length; reflexivity|left; exact Ek].
      * apply Hg. replace v1 with v by congruence. replace k1 with k by congruence. exact Hbad.
      * assert (Hin : (k, v) ∈ l1) by (apply H3; auto). rewrite Forall_forall in Hs. destruct (Hs _ Hin) as [Hx _]. exact (Hx Hbad).
      * apply Hg. replace v1 with v by congruence. replace k1 with k by congruence. exact Hbad.
    + exfalso. destruct (cursor_split _ _ _ _ _ _ Es) as (H1 & H2 & H3 & H4). destruct (ble_total k1 k) as [L|L]; apply ble_lt_eq in L as [L|L].
      * apply (Hall k1 v1 H1 H2 L Hst).
      * apply Hg. replace v1 with v by congruence. replace k1 with k by congruence. exact Hbad.
      * assert (Hin : (k, v) ∈ l1) by (apply H3; auto). rewrite Forall_forall in Hs. destruct (Hs _ Hin) as [Hx _]. exact (Hx Hbad).
      * apply Hg. replace v1 with v by congruence. replace k1 with k by congruence. exact Hbad.
Qed.
(** in all other cases the answer is ENOENT *)
Theorem C73_lookup_total : forall b p n, real_db b -> u64 p -> p <> INVALID_INO -> (length n <= 503)%nat ->
  b_lookup b p n = Crash \/ b_lookup b p n = Done (Err ENOENT) \/ exists i, b_lookup b p n = Done (Ok i).
Proof.
  intros b p n (_ & _ & Hr) Hp Hp0 Hn. unfold b_lookup, check_name, MAX_NAME. destruct (Z.ltb_spec (511 - 8) (Z.of_nat (length n))); [lia|]. cbn [negb].
  destruct (Z.eqb_spec p INVALID_INO); [contradiction|]. destruct (scan_ends p n _ (cursor_bytes (b_treen b) (le64 p) Hr) Hp); eauto.
Qed.

(** ** readdir *)
(** Let the directory's parent be readable.  After [prev], the next entry is the first in key order,
    [prev] itself left out, from [prev]'s position on (from the start of the directory after ".."):
    an unreadable one answers EIO, a key that is not two inode numbers fails an assertion. *)
Theorem C73_readdir : forall b dir prev par, real_db b -> u64 dir -> u64 prev -> b_parent b dir = Done (Ok par) -> prev <> 0 -> (prev = par \/ prev <> dir) ->
  let lo := le64 dir ++ le64 (if prev =? par then 0 else prev) in
  let next := first_from (b_treei b) lo (fun k => k <> le64 dir ++ le64 prev) in
  ((forall k v, b_treei b !! k = Some v -> ble lo k -> k = le64 dir ++ le64 prev) /\ b_readdir b dir prev = Done (Err 0)) \/
  exists k v, next k v /\
    b_readdir b dir prev = if decide (length k <> 16%nat) then Crash
                           else if decide (take 8 k <> le64 dir) then Done (Err 0)
                           else if malformed_dec 16 v then Done (Err EIO) else Done (Ok (unle (drop 8 k), drop 16 v)).
Proof.
  intros b dir prev par (_ & Hr & _) Hd Hpv Hpar Hp0 Hdots lo next. unfold b_readdir. destruct (Z.eqb_spec prev 0); [contradiction|]. rewrite Hpar. cbn [obind].
  replace (negb (prev =? par) && (prev =? dir)) with false by (destruct (Z.eqb_spec prev par), (Z.eqb_spec prev dir); cbn; tauto).
  fold lo. pose proof (first_cursor (b_treei b) lo) as HF.
  assert (Hent : forall k v, b_treei b !! k = Some v -> length k = 16%nat -> take 8 k = le64 dir -> b_readdir_entry (unle (drop 8 k)) v = if malformed_dec 16 v then Done (Err EIO) else Done (Ok (unle (drop 8 k), drop 16 v))).
  { intros k v Hk _ _. destruct (Hr _ _ Hk) as [_ Hv]. unfold b_readdir_entry. destruct (C31_direntry_parse_exact v Hv) as [[H1 H2]|(H1 & e & r0 & H2 & _ & H3 & _)];
      destruct (malformed_dec 16 v); try contradiction; rewrite H2; [reflexivity|rewrite H3; reflexivity]. }
  destruct (cursor (b_treei b) lo) as [|[k v] l]; [left; split; [intros k v A B; destruct (HF _ _ A B)|reflexivity]|]. destruct HF as [(F1 & F2 & _ & F3) HF]. destruct (Hr _ _ F1) as [Hk _].
  destruct (Nat.eqb_spec (length k) 16) as [El|El]; cbn [negb].
  2: { right. exists k, v. split; [|rewrite decide_True by assumption; reflexivity]. split_and!; try assumption; [intros ->; apply El; rewrite app_length, !le64_length; reflexivity|]. intros; eapply F3; eauto. }
  destruct (Z.eqb_spec (unle (take 8 k)) dir) as [Ed|Ed]; cbn [negb].
  2: { right. exists k, v. split.
       - split_and!; try assumption; [|intros; eapply F3; eauto]. intros ->. apply Ed. rewrite take8. apply unle_le64, Hd.
       - rewrite decide_False by tauto. rewrite decide_True; [reflexivity|]. intros E. apply Ed. rewrite E. apply unle_le64, Hd. }
  destruct (Z.eqb_spec (unle (drop 8 k)) prev) as [Ep|Ep].
  - assert (Ek : k = le64 dir ++ le64 prev) by (apply (key16 dir prev k Hk Hd Hpv El); auto). destruct l as [|[k2 v2] l].
    + left. split; [|reflexivity]. intros k' v' A B. rewrite <- Ek. eapply HF; eassumption.
    + right. exists k2, v2. rewrite Ek in HF. split; [exact HF|]. destruct HF as (G1 & G2 & G3 & G4). destruct (Hr _ _ G1) as [Hk2 _].
      destruct (Nat.eqb_spec (length k2) 16) as [El2|El2]; cbn [negb]; [rewrite decide_False by tauto|rewrite decide_True by assumption; reflexivity].
      destruct (Z.eqb_spec (unle (take 8 k2)) dir) as [Ed2|Ed2]; cbn [negb]; rewrite (take8_of dir k2 Hk2 Hd) in Ed2 by lia; [rewrite decide_False by tauto|rewrite decide_True by assumption; reflexivity].
      apply Hent; assumption.
  - right. exists k, v. split.
    + split_and!; try assumption; [|intros; eapply F3; eauto]. intros ->. apply Ep. rewrite drop8. apply unle_le64, Hpv.
    + rewrite decide_False by tauto. rewrite (take8_of dir k Hk Hd) in Ed by lia. rewrite decide_False by tauto. apply Hent; assumption.
Qed.
(** the entries "." and ".."; and without a readable record of the directory, no more than "." *)
Theorem C73_readdir_dots : forall b dir prev, real_db b ->
  b_readdir b dir 0 = Done (Ok (dir, DOT)) /\
  (forall e, prev <> 0 -> b_parent b dir = Done (Err e) -> b_readdir b dir prev = Done (Err EIO)) /\
  (forall par, dir <> 0 -> par <> dir -> b_parent b dir = Done (Ok par) -> b_readdir b dir dir = Done (Ok (par, DOTDOT))).
Proof.
  intros b dir prev _. split_and!; [reflexivity| |].
  - intros e Hp E. unfold b_readdir. destruct (Z.eqb_spec prev 0); [contradiction|]. rewrite E. reflexivity.
  - intros par Hd Hp E. unfold b_readdir. destruct (Z.eqb_spec dir 0); [contradiction|]. rewrite E. cbn [obind]. destruct (Z.eqb_spec dir par); [congruence|]. rewrite Z.eqb_refl. reflexivity.
Qed.

(** ** path *)
Lemma rises_le b : forall k j x, rises b x k -> (j <= k)%nat -> rises b x j.
Proof. induction k as [|k IH]; intros [|j] x H Hj; try exact I; [lia|]. destruct H as (p & n & A & B & C). exists p, n. split_and!; auto. apply IH; [exact C|lia]. Qed.
Lemma rises_loop b : forall k x buf, rises b x k -> b_path_loop k b x buf = Diverge.
Proof.
  induction k as [|k IH]; intros x buf H; [reflexivity|]. destruct H as (p & n & [A A'] & B & C). cbn [b_path_loop]. rewrite A. cbn [obind]. rewrite A'. cbn [obind].
  destruct (Z.eqb_spec p ROOT_INO); [contradiction|]. apply IH, C.
Qed.
Lemma path_cases b x : real_db b -> u64 x -> x <> ROOT_INO ->
  (forall k, rises b x k) /\ b_path b x = Diverge \/
  (exists m, ends b x m) /\ ((exists s, climbs b x s /\ b_path b x = Done (Ok s)) \/ (exists e, b_path b x = Done (Err e)) /\ forall s, ~ climbs b x s).
Proof.
  intros (Hr & _) Hx Hne. unfold b_path. destruct (Z.eqb_spec x ROOT_INO); [contradiction|]. destruct (rises_or_ends b Hr (S (size (b_inodes b))) x Hne) as [H|(m & Hm & H)].
  - left. split; [|apply rises_loop, H]. intros k. destruct (rises_or_ends b Hr k x Hne) as [G|(m & Hm & G)]; [exact G|]. exfalso. pose proof (ends_bound b x m Hr Hx G).
    apply (ends_not_rises b x m G). eapply rises_le; [exact H|lia].
  - right. split; [eauto|]. pose proof (ends_bound b x m Hr Hx H) as Hb. destruct (loop_ends b x m H (S (size (b_inodes b))) [] ltac:(lia)) as [(s & Hs & E)|[[He Hn]|(A & B & _)]].
    + left. exists s. split; [exact Hs|]. rewrite E. cbn [rev]. rewrite app_nil_r. reflexivity.
    + right. auto.
    + exfalso. clear - A B Hr. assert (G : forall fuel y buf, b_path_loop fuel b y buf = Diverge \/ exists r, b_path_loop fuel b y buf = Done r).
      { induction fuel as [|fuel IH]; intros y buf; [auto|]. cbn [b_path_loop]. destruct (parent_returns b y Hr) as [[p|e] ->]; cbn [obind]; [|eauto]. destruct (name_returns b p y) as [[n|e] ->]; cbn [obind]; [|eauto].
        destruct (p =? ROOT_INO); eauto. }
      destruct (G (S (size (b_inodes b))) x []) as [E|[r E]]; [contradiction|apply (B r E)].
Qed.
Lemma climbs_ends b x s : climbs b x s -> exists k, ~ rises b x k.
Proof.
  induction 1 as [y n Hu|y p n s Hu Hp Hc [k Hk]].
  - exists 1%nat. intros (p & n' & A & B & _). destruct (step_up_det _ _ _ _ _ _ Hu A) as [<- _]. contradiction.
  - exists (S k). intros (q & n' & A & B & C). destruct (step_up_det _ _ _ _ _ _ Hu A) as [<- _]. contradiction.
Qed.
(** path() has an answer exactly if going up ends.  It is a value exactly if the root is reached, and
    then the path is that of the names on the way; it runs for ever exactly if the parents of the records form a
    loop; there is no exception and no failed assertion. *)
Theorem C73_path : forall b x, real_db b -> u64 x -> x <> ROOT_INO ->
  (forall s, b_path b x = Done (Ok s) <-> climbs b x s) /\
  (b_path b x = Diverge <-> forall k, rises b x k) /\
  (b_path b x = Diverge \/ exists r, b_path b x = Done r).
Proof.
  intros b x Hr Hx Hne. destruct (path_cases b x Hr Hx Hne) as [[H E]|[[m Hm] [(s & Hs & E)|[[e E] Hn]]]]; rewrite E; split_and!.
  - intros s. split; [discriminate|]. intros Hc. destruct (climbs_ends b x s Hc) as [k Hk]. destruct (Hk (H k)).
  - split; auto.
  - auto.
  - intros s'. split; [intros F; injection F as <-; exact Hs|]. intros Hc. do 2 f_equal. clear - Hs Hc. revert s' Hc. induction Hs as [y n Hu|y p n s Hu Hp Hs IH]; intros s' Hc; inversion Hc as [z n' G|z q n' s1 G Hq Hs1]; subst;
      destruct (step_up_det _ _ _ _ _ _ Hu G) as [Eq1 Eq2]; subst; try contradiction; [reflexivity|]. f_equal. apply IH, Hs1.
  - split; [discriminate|]. intros H. destruct (ends_not_rises b x m Hm). apply H.
  - eauto.
  - intros s. split; [discriminate|]. intros Hc. destruct (Hn _ Hc).
  - split; [discriminate|]. intros H. destruct (ends_not_rises b x m Hm). apply H.
  - eauto.
Qed.

(** ** Opening and writing *)
Lemma clean_none pad b r : b_orphans b = ∅ -> b_clean_orphans pad b r = Done (b, r).
Proof.
  intros E. unfold b_clean_orphans. cbn [b_clean_loop]. rewrite E. unfold all_of, entries. rewrite map_to_list_empty. reflexivity.
Qed.
Lemma tx_clean_none pad t : b_orphans (bt_db t) = ∅ -> b_tx_clean pad t = Done t.
Proof. intros E. unfold b_tx_clean. rewrite clean_none by assumption. destruct t. reflexivity. Qed.
(** A database with a counter and no orphans is opened and left as it is, whatever its other tables hold. *)
Theorem C73_open : forall pad root b v, b_meta b !! NEXT_INO = Some v -> b_orphans b = ∅ -> b_open pad root b = Done (b, ∅).
Proof.
  intros pad root b v Hv Ho. unfold b_open, b_init. rewrite Hv. rewrite tx_clean_none by exact Ho. cbn [obind]. rewrite tx_clean_none by exact Ho. reflexivity.
Qed.
(** If its first orphan key is not an inode number, it cannot be opened. *)
Theorem C73_open_orphan_key : forall pad root b v k o, b_meta b !! NEXT_INO = Some v -> b_orphans b !! k = Some o -> length k <> 8%nat ->
  (forall k' o', b_orphans b !! k' = Some o' -> ble k k') -> b_open pad root b = Throw.
Proof.
  intros pad root b v k o Hv Hk Hl Hmin. unfold b_open, b_init. rewrite Hv. unfold b_tx_clean at 1, b_clean_orphans. cbn [bt_db bt_refs b_clean_loop].
  assert (E : exists o' l, all_of (b_orphans b) = (k, o') :: l).
  { assert (Hin : (k, o) ∈ all_of (b_orphans b)) by (apply (elem_of_entries (fun k : bytes => k)), Hk). pose proof (entries_sorted (fun k : bytes => k) (b_orphans b)) as Hs. fold (all_of (b_orphans b)) in Hs.
    destruct (all_of (b_orphans b)) as [|[k1 o1] l] eqn:E; [inversion Hin|]. assert (H1 : b_orphans b !! k1 = Some o1) by (apply (elem_of_entries (fun k : bytes => k)); fold (all_of (b_orphans b)); rewrite E; left).
    pose proof (Hmin _ _ H1) as L. apply elem_of_cons in Hin as [Hin|Hin]; [injection Hin as <- <-; eauto|]. apply StronglySorted_inv in Hs as [_ Hs]. rewrite Forall_forall in Hs. specialize (Hs _ Hin). unfold kle in Hs. cbn [fst] in Hs.
    rewrite (ble_antisym _ _ L Hs). eauto. }
  destruct E as (o' & l & ->). cbn [b_victim]. unfold get_ino. destruct (Nat.eqb_spec (length k) 8); [contradiction|]. reflexivity.
Qed.
(** Without the counter the rest is kept and numbers are handed out anew from 2: the first new name gets
    inode 2, and the record of the object that had this number is overwritten. *)
Theorem C73_open_no_counter : forall pad root b, b_meta b !! NEXT_INO = None -> b_orphans b = ∅ ->
  exists b', b_open pad root b = Done (b', ∅) /\ b_treei b' = b_treei b /\ b_treen b' = b_treen b /\ b_links b' = b_links b /\
    (forall k, k <> le64 ROOT_INO -> b_inodes b' !! k = b_inodes b !! k) /\
    forall p n a, check_name n true = Ok () -> b_treen b !! (le64 p ++ n) = None ->
      exists t, b_emplace pad (BTx b' ∅ [] None) p n a = Done (Ok 2, t) /\ b_inodes (bt_db t) !! le64 2 = Some (ser pad (mkinode a p)).
Proof.
  intros pad root b Hv Ho. unfold b_open, b_init. rewrite Hv.
  set (b' := bset_inodes _ _). assert (Ho' : b_orphans b' = ∅) by exact Ho. rewrite tx_clean_none by exact Ho'. cbn [obind]. rewrite tx_clean_none by exact Ho'. cbn [obind bt_db bt_refs]. exists b'.
  split; [reflexivity|]. split_and!; try reflexivity.
  - intros k Hk. subst b'. cbn [b_inodes bset_inodes bset_meta]. apply lookup_insert_ne. congruence.
  - intros p n a Hn Ht. unfold b_emplace. rewrite Hn. cbn [bt_db]. replace (b_treen b' !! (le64 p ++ n)) with (@None bytes) by (symmetry; exact Ht).
    unfold b_allocate. assert (Hm : b_meta b' !! NEXT_INO = Some (le64 (ROOT_INO + 1))) by (subst b'; cbn [b_meta bset_inodes bset_meta]; apply lookup_insert). rewrite Hm.
    change (get_ino (le64 (ROOT_INO + 1))) with (@Done Z 2). cbn [obind]. rewrite tx_clean_none by exact Ho'. cbn [obind]. eexists. split; [reflexivity|].
    cbn [bwith_db bt_db b_inodes bset_treei bset_treen bset_inodes]. apply lookup_insert.
Qed.
(** A new name (no orphans): stored under the number of the counter; the exception is exactly that of a
    counter that is missing or not 8 bytes long. *)
Theorem C73_emplace_new : forall pad t p n a, check_name n true = Ok () -> b_treen (bt_db t) !! (le64 p ++ n) = None -> b_orphans (bt_db t) = ∅ ->
  match b_meta (bt_db t) !! NEXT_INO with
  | Some v => if decide (length v = 8%nat) then exists t', b_emplace pad t p n a = Done (Ok (unle v), t') else b_emplace pad t p n a = Throw
  | None => b_emplace pad t p n a = Throw
  end.
Proof.
  intros pad t p n a Hn Ht Ho. unfold b_emplace. rewrite Hn, Ht. unfold b_allocate. destruct (b_meta (bt_db t) !! NEXT_INO) as [v|]; [|reflexivity]. unfold get_ino.
  case_decide as El; [|destruct (Nat.eqb_spec (length v) 8); [contradiction|reflexivity]]. rewrite El. cbn [Nat.eqb obind]. rewrite tx_clean_none by exact Ho. cbn [obind]. eauto.
Qed.
(** An existing name: an assertion fails if the entry, or the inode record it names, cannot be read;
    if both can and the type is the same, the record is replaced. *)
Theorem C73_emplace_existing : forall pad t p n a v, real_db (bt_db t) -> check_name n true = Ok () -> b_treen (bt_db t) !! (le64 p ++ n) = Some v ->
  let old := unle (take 8 (drop 8 v)) in
  (malformed 16 v -> b_emplace pad t p n a = Crash) /\
  (~ malformed 16 v -> forall e, record_says (bt_db t) old (Err e) -> b_emplace pad t p n a = Crash) /\
  (~ malformed 16 v -> forall i, record_says (bt_db t) old (Ok i) -> ftype (a_mode (i_attr i)) = ftype (a_mode a) ->
     exists t', b_emplace pad t p n a = Done (Ok old, t') /\ bt_db t' = bset_inodes (<[le64 old := ser pad (mkinode a p)]> (b_inodes (bt_db t))) (bt_db t)).
Proof.
  intros pad t p n a v Hreal Hn Ht old. destruct Hreal as (Hi & _ & Hr). destruct (Hr _ _ Ht) as [_ Hv]. unfold b_emplace. rewrite Hn, Ht.
  destruct (C31_direntry_parse_exact v Hv) as [[H1 H2]|(H1 & e & r0 & H2 & _)]; rewrite H2; [split_and!; [reflexivity|intros H; contradiction|intros H; contradiction]|].
  assert (Eo : de_ino e = old) by apply (dirent_fields v e H2). rewrite Eo. destruct (record_total (bt_db t) old Hi) as (r & Hs & Hp).
  split_and!; [intros H; contradiction| |].
  - intros _ e' He. rewrite (C73_one_reading _ _ _ _ Hs He) in Hp. destruct (b_inodes (bt_db t) !! le64 old) as [w|]; [|reflexivity]. rewrite Hp. reflexivity.
  - intros _ i Hi' Hty. rewrite (C73_one_reading _ _ _ _ Hs Hi') in Hp. destruct (b_inodes (bt_db t) !! le64 old) as [w|]; [|discriminate Hp]. rewrite Hp. cbn [obind]. rewrite Hty, Z.eqb_refl. eexists. split; reflexivity.
Qed.

(** ** Damage that is not noticed *)
(** There is no checksum: any 96 bytes that begin with 1 are an inode. *)
Theorem C73_undetected_refuted : ~ (forall b x v v', real_db b -> b_inodes b !! le64 x = Some v -> is_bytes v' -> length v' = length v -> v' <> v ->
  exists e, b_getattr (bset_inodes (<[le64 x := v']> (b_inodes b)) b) x = Done (Err e)).
Proof.
  intros H. set (v := ser_inode 0 0 0 (mkinode (Attrs 5 0 0 0 (0, 0) (0, 0) (0, 0) S_IFREG) 1)). set (v' := ser_inode 0 0 0 (mkinode (Attrs 6 0 0 0 (0, 0) (0, 0) (0, 0) S_IFREG) 1)).
  destruct (H (bset_inodes {[le64 2 := v]} bdb_empty) 2 v v') as [e He].
  - split_and!; intros k w Hk; [|discriminate Hk|discriminate Hk]. cbn [bset_inodes b_inodes] in Hk. apply lookup_singleton_Some in Hk as [<- <-]. split; apply Forall_forall; intros x Hx;
      [pose proof (proj1 (Forall_forall _ _) (le_bytes 8 2) x Hx) as B; exact B|]. assert (B : forallb (fun x => (0 <=? x) && (x <? 256)) v = true) by (vm_compute; reflexivity). rewrite forallb_forall in B.
    apply elem_of_list_In, B, andb_true_iff in Hx as [A C]. apply Z.leb_le in A. apply Z.ltb_lt in C. lia.
  - apply lookup_singleton.
  - apply Forall_forall. intros x Hx. assert (B : forallb (fun x => (0 <=? x) && (x <? 256)) v' = true) by (vm_compute; reflexivity). rewrite forallb_forall in B.
    apply elem_of_list_In, B, andb_true_iff in Hx as [A C]. apply Z.leb_le in A. apply Z.ltb_lt in C. lia.
  - reflexivity.
  - intros E. apply (f_equal (fun l => nth 16 l 0)) in E. vm_compute in E. discriminate E.
  - unfold b_getattr in He. cbn [bset_inodes b_inodes] in He. rewrite lookup_insert in He. vm_compute in He. discriminate He.
Qed.

(** ** A damaged database *)
(** root > "d" (2) > "a" (3), "bb" (4); root > "e" (5) > "c" (6).  The entries of "a" are of version 2, the
    record of 4 is cut off, and 5 and 6 are each other's parents. *)
Definition dmg_inode (parent mode : Z) : bytes := ser_inode 0 0 0 (Inode 0 parent (Attrs 5 0 0 0 (0, 0) (0, 0) (0, 0) mode)).
Definition dmg_entry (ino : Z) (n : bytes) : bytes := ser_dirent 0 (Dirent 0 0 ino n).
Definition dmg_v2 (v : bytes) : bytes := 2 :: tail v.
Definition dmg_tree (l : list (Z * bytes * Z * bytes)) : table * table :=
  (list_to_map (map (fun '(p, n, i, v) => (le64 p ++ le64 i, v)) l), list_to_map (map (fun '(p, n, i, v) => (le64 p ++ n, v)) l)).
Definition dmg_links : list (Z * bytes * Z * bytes) :=
  [(1, [100], 2, dmg_entry 2 [100]); (2, [97], 3, dmg_v2 (dmg_entry 3 [97])); (2, [98; 98], 4, dmg_entry 4 [98; 98]);
   (6, [101], 5, dmg_entry 5 [101]); (5, [99], 6, dmg_entry 6 [99])].
Definition dmg : bdb := BDb {[NEXT_INO := le64 7]}
  (list_to_map [(le64 1, dmg_inode 0 S_IFDIR); (le64 2, dmg_inode 1 S_IFDIR); (le64 3, dmg_inode 2 S_IFREG); (le64 4, take 40 (dmg_inode 2 S_IFREG));
                (le64 5, dmg_inode 6 S_IFDIR); (le64 6, dmg_inode 5 S_IFDIR)])
  (dmg_tree dmg_links).1 (dmg_tree dmg_links).2 ∅ ∅.
Definition bytesb (l : bytes) : bool := forallb (fun x => (0 <=? x) && (x <? 256)) l.
Definition realb (m : table) : bool := forallb (fun x => bytesb x.1 && bytesb x.2) (map_to_list m).
Lemma bytesb_ok l : bytesb l = true -> is_bytes l.
Proof. intros H. apply Forall_forall. intros x Hx. unfold bytesb in H. rewrite forallb_forall in H. apply elem_of_list_In, H, andb_true_iff in Hx as [A B]. apply Z.leb_le in A. apply Z.ltb_lt in B. lia. Qed.
Lemma realb_ok m : realb m = true -> real m.
Proof.
  intros H k v Hk. unfold realb in H. rewrite forallb_forall in H. apply elem_of_map_to_list, elem_of_list_In, H, andb_true_iff in Hk as [A B]. cbn [fst snd] in *. split; apply bytesb_ok; assumption.
Qed.
Example C73_sample_real : real_db dmg.
Proof. split_and!; apply realb_ok; vm_compute; reflexivity. Qed.
(** Looking up "bb" fails an assertion (on the entry before it), and so does the missing "x" in "d"; the missing "xyz" of the directory 5 is looked
    for up to the end; "d" is found.  The listing of "d" stops at "a"; 4 has no attributes; 5 has no path. *)
Example C73_sample : (b_lookup dmg 2 [98; 98], b_lookup dmg 2 [120], b_lookup dmg 1 [100], b_lookup dmg 5 [120; 121; 122]) = (Crash, Crash, Done (Ok 2), Done (Err ENOENT)) /\
  (b_readdir dmg 2 1, b_readdir dmg 2 3) = (Done (Err EIO), Done (Ok (4, [98; 98]))) /\
  (b_getattr dmg 4, b_path dmg 3, b_path dmg 5) = (Done (Err EINVAL), Done (Err EINVAL), Diverge) /\
  (exists r, b_getattr dmg 3 = Done (Ok r)) /\ b_open (fun _ => 0) (Attrs 0 0 0 0 (0, 0) (0, 0) (0, 0) 0) dmg = Done (dmg, ∅).
Proof.
  split; [vm_compute; reflexivity|]. split; [vm_compute; reflexivity|]. split; [vm_compute; reflexivity|]. split; [eexists; vm_compute; reflexivity|].
  apply (C73_open _ _ _ (le64 7)); [apply lookup_singleton|reflexivity].
Qed.
Print Assumptions C73_inode_reads.
Print Assumptions C73_one_reading.
Print Assumptions C73_name_reads.
Print Assumptions C73_local.
Print Assumptions C73_lookup_found.
Print Assumptions C73_lookup_crash.
Print Assumptions C73_lookup_total.
Print Assumptions C73_readdir.
Print Assumptions C73_readdir_dots.
Print Assumptions C73_path.
Print Assumptions C73_open.
Print Assumptions C73_open_orphan_key.
Print Assumptions C73_open_no_counter.
Print Assumptions C73_emplace_new.
Print Assumptions C73_emplace_existing.
Print Assumptions C73_undetected_refuted.
