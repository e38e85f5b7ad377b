(** Tables of bytes and the decoded tables they stand for. *)
From Coq Require Import Sorted.
From Verif Require Export Lmdb.

Lemma merge_key_unique (l1 l2 : list bytes) : StronglySorted ble l1 -> StronglySorted ble l2 -> Permutation l1 l2 -> l1 = l2.
Proof.
  intros H1 H2 HP. assert (Ha : AntiSymm (=) ble) by (intros a b; apply ble_antisym). eapply StronglySorted_unique; eassumption.
Qed.

Section tab.
  Context {K A : Type} `{Countable K} (ok : K -> Prop) (E : K -> bytes) (V : A -> bytes -> Prop).
  (** [bm] has exactly the entries of [m], encoded *)
  Record tab (m : gmap K A) (bm : table) : Prop := {
    tab_ok : forall k a, m !! k = Some a -> ok k;
    tab_fwd : forall k a, m !! k = Some a -> exists v, bm !! E k = Some v /\ V a v;
    tab_bwd : forall kb v, bm !! kb = Some v -> exists k a, m !! k = Some a /\ kb = E k /\ V a v }.
  Context (inj : forall k k', ok k -> ok k' -> E k = E k' -> k = k').
  Lemma tab_empty : tab ∅ ∅.
  Proof. split; intros *; rewrite lookup_empty; discriminate. Qed.
  Lemma tab_some m bm k a : tab m bm -> m !! k = Some a -> exists v, bm !! E k = Some v /\ V a v.
  Proof. intros T Hk. exact (tab_fwd _ _ T _ _ Hk). Qed.
  Lemma tab_none m bm k : tab m bm -> ok k -> m !! k = None -> bm !! E k = None.
  Proof.
    intros T Hok Hk. destruct (bm !! E k) as [v|] eqn:Eb; [|reflexivity]. destruct (tab_bwd _ _ T _ _ Eb) as (k' & a & Hk' & Ee & _).
    apply inj in Ee; [|exact Hok|exact (tab_ok _ _ T _ _ Hk')]. subst. congruence.
  Qed.
  Lemma tab_insert m bm k a v : tab m bm -> ok k -> V a v -> tab (<[k := a]> m) (<[E k := v]> bm).
  Proof.
    intros T Hok Hv. split.
    - intros k' a' Hk'. apply lookup_insert_Some in Hk' as [[-> _]|[_ Hk']]; [exact Hok|exact (tab_ok _ _ T _ _ Hk')].
    - intros k' a' Hk'. apply lookup_insert_Some in Hk' as [[-> ->]|[Hne Hk']]; [exists v; rewrite lookup_insert; auto|].
      destruct (tab_fwd _ _ T _ _ Hk') as (v' & Hv' & HV). exists v'. rewrite lookup_insert_ne; [auto|]. intros Ee. apply inj in Ee; [congruence|exact Hok|exact (tab_ok _ _ T _ _ Hk')].
    - intros kb v' Hb. apply lookup_insert_Some in Hb as [[<- <-]|[Hne Hb]]; [exists k, a; rewrite lookup_insert; auto|].
      destruct (tab_bwd _ _ T _ _ Hb) as (k' & a' & Hk' & -> & HV). exists k', a'. rewrite lookup_insert_ne by congruence. auto.
  Qed.
  Lemma tab_delete m bm k : tab m bm -> ok k -> tab (delete k m) (delete (E k) bm).
  Proof.
    intros T Hok. split.
    - intros k' a' Hk'. apply lookup_delete_Some in Hk' as [_ Hk']. exact (tab_ok _ _ T _ _ Hk').
    - intros k' a' Hk'. apply lookup_delete_Some in Hk' as [Hne Hk']. destruct (tab_fwd _ _ T _ _ Hk') as (v' & Hv' & HV). exists v'. rewrite lookup_delete_ne; [auto|]. intros Ee. apply inj in Ee; [congruence|exact Hok|exact (tab_ok _ _ T _ _ Hk')].
    - intros kb v' Hb. apply lookup_delete_Some in Hb as [Hne Hb]. destruct (tab_bwd _ _ T _ _ Hb) as (k' & a' & Hk' & -> & HV). exists k', a'. rewrite lookup_delete_ne by congruence. auto.
  Qed.
  (** in key order *)
  Definition same (m : gmap K A) (x : K * A) (y : bytes * bytes) : Prop := m !! x.1 = Some x.2 /\ y.1 = E x.1 /\ V x.2 y.2.
  Lemma keys_sorted (L : list (K * A)) : StronglySorted (kle E) L -> StronglySorted ble (map (fun x => E x.1) L).
  Proof.
    induction 1 as [|x L HL IH Hx]; cbn; constructor; [exact IH|]. apply Forall_map. exact Hx.
  Qed.
  Lemma tab_entries m bm : tab m bm -> Forall2 (same m) (entries E m) (all_of bm).
  Proof.
    intros T. assert (HK : map (fun x => E x.1) (entries E m) = (all_of bm).*1).
    { apply merge_key_unique.
      - apply keys_sorted, entries_sorted.
      - pose proof (entries_sorted (fun k : bytes => k) bm) as Hs. unfold all_of. clear -Hs. induction Hs as [|x L HL IH Hx]; cbn; constructor; [exact IH|]. apply Forall_fmap. exact Hx.
      - apply NoDup_Permutation.
        + assert (Em : map (fun x => E x.1) (entries E m) = E <$> (entries E m).*1) by (rewrite <- list_fmap_compose; reflexivity). rewrite Em. apply NoDup_fmap_2_strong.
          * intros k k' Hk Hk' Ee. apply elem_of_list_fmap in Hk as ([k1 a1] & -> & Hk). apply elem_of_list_fmap in Hk' as ([k2 a2] & -> & Hk'). apply elem_of_entries in Hk. apply elem_of_entries in Hk'. exact (inj _ _ (tab_ok _ _ T _ _ Hk) (tab_ok _ _ T _ _ Hk') Ee).
          * apply NoDup_entries.
        + apply NoDup_entries.
        + intros kb. split.
          * intros Hk. apply elem_of_list_In, in_map_iff in Hk as ([k a] & <- & Hk). apply elem_of_list_In, elem_of_entries in Hk. destruct (tab_fwd _ _ T _ _ Hk) as (v & Hv & _). apply elem_of_list_fmap. exists (E k, v). split; [reflexivity|]. apply elem_of_entries, Hv.
          * intros Hk. apply elem_of_list_fmap in Hk as ([kb' v] & -> & Hk). apply elem_of_entries in Hk. destruct (tab_bwd _ _ T _ _ Hk) as (k & a & Hk' & Ee & _). cbn [fst] in *. rewrite Ee. apply elem_of_list_In, in_map_iff. exists (k, a). split; [reflexivity|]. apply elem_of_list_In, elem_of_entries, Hk'. }
    assert (Hlen : length (entries E m) = length (all_of bm)) by (rewrite <- (map_length (fun x => E x.1)), HK; apply fmap_length).
    apply Forall2_same_length_lookup_2; [exact Hlen|]. intros i [k a] [kb v] Hi Hj.
    assert (Ek : kb = E k).
    { assert (H1 : map (fun x => E x.1) (entries E m) !! i = Some (E k)) by (rewrite list_lookup_fmap, Hi; reflexivity). rewrite HK, list_lookup_fmap, Hj in H1. injection H1 as <-. reflexivity. }
    assert (Hm : m !! k = Some a) by (apply (elem_of_entries E), elem_of_list_lookup; eauto).
    assert (Hb : bm !! kb = Some v) by (apply (elem_of_entries (fun k : bytes => k)), elem_of_list_lookup; eauto).
    destruct (tab_fwd _ _ T _ _ Hm) as (v' & Hv' & HV). rewrite Ek in Hb. rewrite Hb in Hv'. injection Hv' as ->. split; [exact Hm|]. split; [exact Ek|exact HV].
  Qed.
  Lemma tab_from m bm key : tab m bm -> Forall2 (same m) (from_key E m key) (cursor bm key).
  Proof.
    intros T. unfold from_key, cursor. pose proof (tab_entries _ _ T) as HF. unfold from_key. fold (all_of bm).
    induction HF as [|x y l l' [Hx [Hy HV]] HF IH]; [constructor|]. rewrite !filter_cons. rewrite Hy.
    destruct (decide (ble key (E x.1))); [constructor; [split; auto|exact IH]|exact IH].
  Qed.
  Lemma tab_size m bm : tab m bm -> size bm = size m.
  Proof.
    intros T. pose proof (Forall2_length _ _ _ (tab_entries _ _ T)) as Hl. unfold entries, all_of, entries in Hl. rewrite !merge_sort_Permutation in Hl.
    unfold size, map_size. symmetry. exact Hl.
  Qed.
End tab.
Arguments tab {K A _ _} ok E V m bm.
Arguments same {K A _ _} E V m x y.

(** ** the tables of the cache *)
Definition V_inode (i : inode) (v : bytes) : Prop := inode_ok i /\ exists pad, v = ser_inode 0 0 pad i.
Definition V_dirent (e : dirent) (v : bytes) : Prop := dirent_ok e /\ v = ser_dirent 0 e.
Definition V_one (_ : unit) (v : bytes) : Prop := v = [0].
Definition ok_ii (k : Z * Z) : Prop := u64 k.1 /\ u64 k.2.
Definition ok_in (k : Z * bytes) : Prop := u64 k.1.
Definition T_inodes := tab u64 le64 V_inode.
Definition T_treei := tab ok_ii enc_ii V_dirent.
Definition T_treen := tab ok_in enc_in V_dirent.
Definition T_orphans (s : gset Z) (bm : table) := tab u64 le64 V_one (gset_to_gmap () s) bm.
Definition T_links := tab u64 le64 (fun (b : bytes) (v : bytes) => v = b).
(** [b] are the bytes of [d] *)
Record Rep (b : bdb) (d : db) : Prop := {
  rep_next : match d_next d with None => b_meta b = ∅ | Some n => u64 n /\ b_meta b = {[NEXT_INO := le64 n]} end;
  rep_inodes : T_inodes (d_inodes d) (b_inodes b);
  rep_treei : T_treei (d_treei d) (b_treei b);
  rep_treen : T_treen (d_treen d) (b_treen b);
  rep_orphans : T_orphans (d_orphans d) (b_orphans b);
  rep_links : T_links (d_links d) (b_links b) }.
Lemma le64_inj' k k' : u64 k -> u64 k' -> le64 k = le64 k' -> k = k'.
Proof. apply le64_inj. Qed.
Lemma enc_ii_inj' k k' : ok_ii k -> ok_ii k' -> enc_ii k = enc_ii k' -> k = k'.
Proof. destruct k as [p c], k' as [p' c']. intros [H1 H2] [H3 H4] E. cbn [fst snd] in *. destruct (enc_ii_inj _ _ _ _ H1 H2 H3 H4 E) as [-> ->]. reflexivity. Qed.
Lemma enc_in_inj' k k' : ok_in k -> ok_in k' -> enc_in k = enc_in k' -> k = k'.
Proof. destruct k as [p c], k' as [p' c']. intros H1 H2 E. unfold ok_in in *. cbn [fst snd] in *. destruct (enc_in_inj _ _ _ _ H1 H2 E) as [-> ->]. reflexivity. Qed.
Lemma V_inode_parse i v : V_inode i v -> parse_inode 0 v = Done (Ok i).
Proof. intros [Hi [pad ->]]. rewrite <- (app_nil_r (ser_inode 0 0 pad i)). apply parse_ser_inode; [exact Hi|reflexivity]. Qed.
Lemma V_dirent_parse e v : V_dirent e v -> parse_dirent v = Ok e.
Proof. intros [He ->]. apply parse_ser_dirent, He. Qed.
Lemma rep_empty : Rep bdb_empty db_empty.
Proof. split; cbn; try apply tab_empty. reflexivity. unfold T_orphans. rewrite gset_to_gmap_empty. apply tab_empty. Qed.

(** one lookup in each table *)
Section lookups.
  Context (b : bdb) (d : db) (HR : Rep b d).
  Lemma rl_inode x : u64 x -> match d_inodes d !! x with
    | Some i => inode_ok i /\ exists v, b_inodes b !! le64 x = Some v /\ parse_inode 0 v = Done (Ok i)
    | None => b_inodes b !! le64 x = None end.
  Proof.
    intros Hx. destruct (d_inodes d !! x) as [i|] eqn:Ei.
    - destruct (tab_some _ _ _ _ _ _ _ (rep_inodes _ _ HR) Ei) as (v & Hv & HV). split; [apply HV|]. exists v. split; [exact Hv|apply V_inode_parse, HV].
    - exact (tab_none _ _ _ le64_inj' _ _ _ (rep_inodes _ _ HR) Hx Ei).
  Qed.
  Lemma rl_treei p c : u64 p -> u64 c -> match d_treei d !! (p, c) with
    | Some e => dirent_ok e /\ exists v, b_treei b !! (le64 p ++ le64 c) = Some v /\ parse_dirent v = Ok e
    | None => b_treei b !! (le64 p ++ le64 c) = None end.
  Proof.
    intros Hp Hc. destruct (d_treei d !! (p, c)) as [e|] eqn:Ei.
    - destruct (tab_some _ _ _ _ _ _ _ (rep_treei _ _ HR) Ei) as (v & Hv & HV). split; [apply HV|]. exists v. split; [exact Hv|apply V_dirent_parse, HV].
    - exact (tab_none _ _ _ enc_ii_inj' _ _ (p, c) (rep_treei _ _ HR) (conj Hp Hc) Ei).
  Qed.
  Lemma rl_treen p n : u64 p -> match d_treen d !! (p, n) with
    | Some e => dirent_ok e /\ exists v, b_treen b !! (le64 p ++ n) = Some v /\ parse_dirent v = Ok e
    | None => b_treen b !! (le64 p ++ n) = None end.
  Proof.
    intros Hp. destruct (d_treen d !! (p, n)) as [e|] eqn:Ei.
    - destruct (tab_some _ _ _ _ _ _ _ (rep_treen _ _ HR) Ei) as (v & Hv & HV). split; [apply HV|]. exists v. split; [exact Hv|apply V_dirent_parse, HV].
    - exact (tab_none _ _ _ enc_in_inj' _ _ (p, n) (rep_treen _ _ HR) Hp Ei).
  Qed.
  Lemma rl_links x : u64 x -> b_links b !! le64 x = d_links d !! x.
  Proof.
    intros Hx. destruct (d_links d !! x) as [i|] eqn:Ei.
    - destruct (tab_some _ _ _ _ _ _ _ (rep_links _ _ HR) Ei) as (v & Hv & ->). exact Hv.
    - exact (tab_none _ _ _ le64_inj' _ _ _ (rep_links _ _ HR) Hx Ei).
  Qed.

  (** ** reads *)
  Lemma r_parent x : u64 x -> b_parent b x = Done (parent_of d x) /\ forall p, parent_of d x = Ok p -> u64 p.
  Proof.
    intros Hx. unfold b_parent, parent_of. destruct (x =? ROOT_INO) eqn:Er; [split; [reflexivity|intros p E; injection E as <-; exact Hx]|].
    pose proof (rl_inode x Hx) as Hi. destruct (d_inodes d !! x) as [i|].
    - destruct Hi as (Hok & v & -> & ->). cbn [obind]. split; [reflexivity|]. intros p E. injection E as <-. apply Hok.
    - rewrite Hi. split; [reflexivity|discriminate].
  Qed.
  Lemma r_name_in p x : u64 p -> u64 x -> b_name_in b p x = Done (name_in d p x).
  Proof.
    intros Hp Hx. unfold b_name_in, name_in. destruct (_ || _); [reflexivity|]. pose proof (rl_treei p x Hp Hx) as Hi.
    destruct (d_treei d !! (p, x)) as [e|]; [destruct Hi as (_ & v & -> & ->); reflexivity|rewrite Hi; reflexivity].
  Qed.
  Lemma r_name_of x : u64 x -> b_name_of b x = Done (name_of d x).
  Proof.
    intros Hx. unfold b_name_of, name_of. destruct (x =? ROOT_INO); [reflexivity|]. destruct (r_parent x Hx) as [-> Hp]. cbn [obind].
    destruct (parent_of d x) as [p|e]; [|reflexivity]. destruct (p =? INVALID_INO); [reflexivity|]. apply r_name_in; auto.
  Qed.
  Lemma r_getattr x : u64 x -> b_getattr b x = Done (getattr d x).
  Proof.
    intros Hx. unfold b_getattr, getattr. pose proof (rl_inode x Hx) as Hi. destruct (d_inodes d !! x) as [i|]; [destruct Hi as (_ & v & -> & ->); reflexivity|rewrite Hi; reflexivity].
  Qed.
  Lemma r_test_flag x f : u64 x -> b_test_flag b x f = Done (test_flag d x f).
  Proof.
    intros Hx. unfold b_test_flag, test_flag. pose proof (rl_inode x Hx) as Hi. destruct (d_inodes d !! x) as [i|]; [destruct Hi as (_ & v & -> & ->); reflexivity|rewrite Hi; reflexivity].
  Qed.
  Lemma r_readlink x : u64 x -> b_readlink b x = Done (readlink d x).
  Proof.
    intros Hx. unfold b_readlink, readlink. rewrite (rl_links x Hx). destruct (d_links d !! x); [reflexivity|]. pose proof (rl_inode x Hx) as Hi. destruct (d_inodes d !! x) as [i|]; [destruct Hi as (_ & v & -> & _); reflexivity|rewrite Hi; reflexivity].
  Qed.
  Lemma unle_le64 x : u64 x -> unle (le64 x) = x.
  Proof. intros Hx. apply unle_le. exact Hx. Qed.
  Lemma take8 x (l : bytes) : take 8 (le64 x ++ l) = le64 x.
  Proof. apply take_app_alt. rewrite le64_length. reflexivity. Qed.
  Lemma drop8 x (l : bytes) : drop 8 (le64 x ++ l) = l.
  Proof. apply drop_app_alt. rewrite le64_length. reflexivity. Qed.
  Lemma r_lookup_scan p n l l' : u64 p -> Forall2 (same enc_in V_dirent (d_treen d)) l l' -> b_lookup_scan p n l' = Done (lookup_scan p n l).
  Proof.
    intros Hp. induction 1 as [|[[q m] e] [k v] l l' Hs HF IH]; [reflexivity|]. destruct Hs as (Hm & Ek & HV). cbn [fst snd] in *. subst k.
    pose proof (tab_ok _ _ _ _ _ (rep_treen _ _ HR) _ _ Hm) as Hq. unfold ok_in in Hq. cbn [fst] in Hq.
    cbn [b_lookup_scan lookup_scan]. unfold enc_in. cbn [fst snd]. rewrite take8, drop8, (unle_le64 q Hq), app_length, le64_length, (V_dirent_parse _ _ HV).
    replace (8 + length m <? 8)%nat with false by (symmetry; apply Nat.ltb_ge; lia). replace (8 + length m - 8)%nat with (length m) by lia.
    destruct (length m =? length n)%nat; cbn [negb]; [|exact IH]. destruct (q =? p); cbn [negb]; [|reflexivity]. destruct (decide (m = n)); [reflexivity|exact IH].
  Qed.
  Lemma r_lookup p n : u64 p -> b_lookup b p n = Done (lookup d p n).
  Proof.
    intros Hp. unfold b_lookup, lookup. destruct (check_name n false); [|reflexivity]. destruct (p =? INVALID_INO); [reflexivity|].
    apply r_lookup_scan; [exact Hp|]. apply (tab_from _ _ _ enc_in_inj' _ _ _ (rep_treen _ _ HR)).
  Qed.
  Lemma r_readdir dir prev : u64 dir -> u64 prev -> b_readdir b dir prev = Done (readdir d dir prev).
  Proof.
    intros Hd Hp. unfold b_readdir, readdir. destruct (prev =? 0); [reflexivity|]. destruct (r_parent dir Hd) as [-> Hpar]. cbn [obind].
    destruct (parent_of d dir) as [par|e]; [|reflexivity]. destruct (_ && _); [reflexivity|].
    assert (Hs : u64 (if prev =? par then 0 else prev)) by (destruct (prev =? par); [split; [lia|reflexivity]|exact Hp]).
    pose proof (tab_from _ _ _ enc_ii_inj' _ _ (enc_ii (dir, if prev =? par then 0 else prev)) (rep_treei _ _ HR)) as HF.
    change (le64 dir ++ le64 (if prev =? par then 0 else prev)) with (enc_ii (dir, if prev =? par then 0 else prev)).
    assert (Hkey : forall q c e k v, same enc_ii V_dirent (d_treei d) (q, c, e) (k, v) -> length k = 16%nat /\ unle (take 8 k) = q /\ unle (drop 8 k) = c /\ parse_dirent v = Ok e).
    { intros q c e k v (Hm & Ek & HV). cbn [fst snd] in *. destruct (tab_ok _ _ _ _ _ (rep_treei _ _ HR) _ _ Hm) as [Hq Hc]. cbn [fst snd] in Hq, Hc. subst k. unfold enc_ii. cbn [fst snd].
      rewrite app_length, !le64_length, take8, drop8, !unle_le64 by assumption. split; [reflexivity|]. split; [reflexivity|]. split; [reflexivity|]. apply V_dirent_parse, HV. }
    destruct HF as [|[[q c] e] [k v] l l' Hs1 HF]; [reflexivity|]. destruct (Hkey _ _ _ _ _ Hs1) as (-> & -> & -> & Hparse). cbn [Nat.eqb negb].
    destruct (q =? dir); cbn [negb]; [|reflexivity]. unfold b_readdir_entry. rewrite Hparse. destruct (c =? prev); [|reflexivity].
    destruct HF as [|[[q' c'] e'] [k' v'] l l' Hs2 HF]; [reflexivity|]. destruct (Hkey _ _ _ _ _ Hs2) as (-> & -> & -> & Hparse'). cbn [Nat.eqb negb].
    destruct (q' =? dir); cbn [negb]; [|reflexivity]. rewrite Hparse'. reflexivity.
  Qed.
  Lemma r_path_loop fuel : forall x buf, u64 x -> b_path_loop fuel b x buf = path_loop fuel d x buf.
  Proof.
    induction fuel as [|fuel IH]; intros x buf Hx; [reflexivity|]. cbn [b_path_loop path_loop]. destruct (r_parent x Hx) as [-> Hp]. cbn [obind].
    destruct (parent_of d x) as [p|e]; [|reflexivity]. specialize (Hp p eq_refl). rewrite r_name_in by assumption. cbn [obind]. destruct (name_in d p x); [|reflexivity].
    destruct (p =? ROOT_INO); [reflexivity|]. apply IH, Hp.
  Qed.
  Lemma r_path x : u64 x -> b_path b x = path d x.
  Proof. intros Hx. unfold b_path, path. rewrite (tab_size _ _ _ le64_inj' _ _ (rep_inodes _ _ HR)). destruct (x =? ROOT_INO); [reflexivity|]. apply r_path_loop, Hx. Qed.
End lookups.
