(** Property theorems C73, continued: the whole cleaning of a damaged cache database (the recursion of
    clean_orphans, cache.cpp:1024-1090, and opening, 298-333). *)
From Verif Require Import LmdbDamage PropsDamage PropsCodec CacheFacts LmdbRel PropsDamage2.

(** ** Specification: what is cut off from the tree *)
(** the inode record can be read and says that it is a file of this type; ... a directory *)
Definition has_type (b : bdb) (o t : Z) : Prop := exists i, record_says b o (Ok i) /\ ftype (a_mode (i_attr i)) = t.
Definition dir_record (b : bdb) (o : Z) : Prop := has_type b o S_IFDIR.
(** orphans, and the entries of directories that are cut off and that nobody has locked *)
Inductive cut_off (b : bdb) (r : refs) : Z -> Prop :=
| cut_orphan x : u64 x -> is_Some (b_orphans b !! le64 x) -> cut_off b r x
| cut_child o x : u64 x -> cut_off b r o -> refcount r o <= 0 -> dir_record b o -> is_Some (b_treei b !! (le64 o ++ le64 x)) -> cut_off b r x.
(** ... those nobody has locked are removed *)
Definition goes (b : bdb) (r : refs) (x : Z) : Prop := cut_off b r x /\ refcount r x <= 0.
(** What has to be in order: the keys of orphans are inode numbers, an orphan's record (if it is
    there and readable) names no parent, 0 is not cut off; and the entries of the directories that go are sound. *)
Record orphans_ok (b : bdb) (r : refs) : Prop := {
  io_keys : forall k, is_Some (b_orphans b !! k) -> exists x, u64 x /\ k = le64 x;
  io_parent : forall x p, u64 x -> is_Some (b_orphans b !! le64 x) -> b_parent b x = Done (Ok p) -> p = INVALID_INO;
  io_null : ~ cut_off b r INVALID_INO }.
Definition sound_dir (b : bdb) (o : Z) : Prop := forall k v, b_treei b !! k = Some v -> in_dir o k -> sound_child b o k v.
Definition in_order (b : bdb) (r : refs) : Prop := orphans_ok b r /\ forall o, goes b r o -> dir_record b o -> sound_dir b o.

(** ** Lemmas *)
Lemma in_dir_inj o o' k : u64 o -> u64 o' -> in_dir o k -> in_dir o' k -> o = o'.
Proof. intros Ho Ho' [r1 ->] [r2 E]. apply app_inj_1 in E as [E _]; [|rewrite !le64_length; reflexivity]. apply le64_inj; assumption. Qed.
Lemma in_dir_dec o k : in_dir o k \/ ~ in_dir o k.
Proof.
  destruct (decide (take 8 k = le64 o)) as [E|E]; [left; exists (drop 8 k); rewrite <- E; symmetry; apply take_drop|right]. intros [x ->]. apply E. rewrite firstn_app, le64_length. cbn [Nat.sub]. rewrite firstn_O, app_nil_r. apply take_ge. rewrite le64_length. lia.
Qed.
Lemma name_of v e : parse_dirent v = Ok e -> de_name e = drop 16 v.
Proof.
  unfold parse_dirent. destruct v as [|x v]; [discriminate|]. destruct (negb (x =? 1)); [discriminate|]. destruct (length (x :: v) <? DIR_ENTRY_SIZE)%nat; [discriminate|].
  destruct (map unle (cut dirent_layout (x :: v))) as [|? [|? [|? [|? [|? [|? ?]]]]]]; try discriminate. intros E. injection E as <-. reflexivity.
Qed.
Lemma mo_more pad b c b' p : clean_db b -> u64 c -> c <> ROOT_INO -> b_make_orphan pad b c = Done (Ok tt, b') -> b_parent b c = Done (Ok p) -> p <> INVALID_INO ->
  b_links b' = b_links b /\ b_meta b' = b_meta b /\ (forall v, b_treei b !! (le64 p ++ le64 c) = Some v -> b_treen b' = delete (le64 p ++ drop 16 v) (b_treen b)) /\
  exists i, record_says b c (Ok i) /\ b_inodes b' !! le64 c = Some (ser pad (set_parent 0 i)).
Proof.
  intros [Hi Ht] Hc Hr E Hp Hz. unfold b_make_orphan in E. rewrite Hp in E. cbn [obind] in E. apply Z.eqb_neq in Hz. rewrite Hz in E.
  destruct (b_treei b !! (le64 p ++ le64 c)) as [v|]; [|discriminate E]. destruct (parse_dirent v) as [e|] eqn:Pe; [|discriminate E]. pose proof (name_of v e Pe) as En.
  cbn [b_inodes bset_orphans bset_treen bset_treei] in E. destruct (record_total b c Hi) as (rr & Hrec & Hpar).
  destruct (parent_record b c p Hp Hr Hi) as [[w Ew] _]. rewrite Ew in E, Hpar. rewrite Hpar in E. cbn [obind] in E.
  destruct rr as [i|ee]; injection E as <-.
  - cbn. split; [reflexivity|]. split; [reflexivity|]. split; [|exists i; split; [exact Hrec|apply lookup_insert]]. intros v' Hv'. injection Hv' as <-. rewrite En. reflexivity.
  - exfalso. unfold b_parent in Hp. apply Z.eqb_neq in Hr. rewrite Hr, Ew, Hpar in Hp. discriminate Hp.
Qed.
Lemma children_more pad o : u64 o -> o <> INVALID_INO -> o <> ROOT_INO -> forall fuel b b', clean_db b ->
  (forall k v, b_treei b !! k = Some v -> in_dir o k -> sound_child b o k v) -> b_orphan_children pad fuel b o = Done b' ->
  clean_db b' /\ b_links b' = b_links b /\ b_meta b' = b_meta b /\ (forall k v, b_treei b !! k = Some v -> in_dir o k -> b_treen b' !! (le64 o ++ drop 16 v) = None) /\
  (forall q, (forall k v, b_treei b !! k = Some v -> in_dir o k -> q <> le64 o ++ drop 16 v) -> b_treen b' !! q = b_treen b !! q) /\ (forall q, b_treen b !! q = None -> b_treen b' !! q = None) /\
  (forall x, u64 x -> is_Some (b_treei b !! (le64 o ++ le64 x)) -> exists i, record_says b x (Ok i) /\ b_inodes b' !! le64 x = Some (ser pad (set_parent 0 i))) /\
  (forall x, u64 x -> b_treei b !! (le64 o ++ le64 x) = None -> b_inodes b' !! le64 x = b_inodes b !! le64 x) /\
  (forall k, is_Some (b_orphans b' !! k) -> is_Some (b_orphans b !! k) \/ exists x, u64 x /\ k = le64 x).
Proof.
  intros Ho Hz Hro. induction fuel as [|fuel IH]; intros b b' Hb Hall E; [discriminate E|]. destruct (first_or_none b o Hb Ho) as [(k & v & Hf)|Hn].
  - rewrite (children_step pad fuel b o k v Hb Ho Hf) in E. destruct Hf as (Hk & Hd & _). pose proof (Hall _ _ Hk Hd) as Hs. pose proof Hs as (M & Ek & Hp). destruct (proj2 Hb _ _ Hk) as [_ Bv]. pose proof (bytes_u64 v Bv) as Hc.
    destruct (proj2 (dirent_ok_iff v Bv) M) as [e Pe]. rewrite Pe, (proj2 (child_u64 v e Bv Pe)) in E. destruct (sound_step pad b o k v Hb Ho Hz Hk Hs) as (b1 & E1 & Hb1 & Ht1 & Ho1 & Hx1 & Hk1). rewrite E1 in E. cbn [obind] in E.
    assert (Hcr : child_of v <> ROOT_INO). { intros Ec. unfold b_parent in Hp. rewrite Ec in Hp. cbn in Hp. injection Hp as Hp. apply Hro. symmetry. exact Hp. }
    destruct (mo_more pad b _ b1 o Hb Hc Hcr E1 Hp Hz) as (L1 & M1 & N1 & i & Ri & Ii).
    destruct (IH b1 b' Hb1) as (C2 & L2 & M2 & N1a & N2 & N0 & K2 & I2 & O2); [|exact E|].
    { intros k' v' E' D'. rewrite Ht1 in E'. apply lookup_delete_Some in E' as [Hne E']. apply (proj1 (Hk1 k' v' (not_eq_sym Hne) E')). apply Hall; assumption. }
    split; [exact C2|]. split; [congruence|]. split; [congruence|]. 
    rewrite Ek in Hk. pose proof (N1 v Hk) as Nv. rewrite <- Ek in Hk.
    assert (Hstay : forall q, b_treen b !! q = None -> b_treen b1 !! q = None) by (intros q Hq; rewrite Nv; apply lookup_delete_None; right; exact Hq).
    assert (Hback : forall k' v', b_treei b1 !! k' = Some v' -> b_treei b !! k' = Some v') by (intros k' v' H'; rewrite Ht1 in H'; apply lookup_delete_Some in H'; apply H').
    split; [intros k' v' E' D'|split; [intros q Hq; rewrite N2, Nv; [apply lookup_delete_ne; intros Eq; exact (Hq k v Hk Hd (eq_sym Eq))|intros k' v' E' D'; exact (Hq k' v' (Hback k' v' E') D')]|split; [intros q Hq; apply N0, Hstay, Hq|]]].
    { destruct (decide (k' = k)) as [->|Hne']; [|apply (N1a k'); [rewrite Ht1, lookup_delete_ne by congruence; exact E'|exact D']]. assert (v' = v) as -> by congruence.
      apply N0. rewrite Nv. apply lookup_delete. }
    assert (Hoth : forall x, u64 x -> x <> child_of v -> b_treei b1 !! (le64 o ++ le64 x) = b_treei b !! (le64 o ++ le64 x)).
    { intros x Hx Hne. rewrite Ht1, Ek. apply lookup_delete_ne. intros Eq. apply Hne. symmetry. exact (pair_inj _ _ _ _ Hc Hx Eq). }
    assert (Hgone : b_treei b1 !! (le64 o ++ le64 (child_of v)) = None) by (rewrite Ht1, Ek; apply lookup_delete).
    split_and!.
    + intros x Hx Hin. destruct (Z.eq_dec x (child_of v)) as [->|Hne].
      * exists i. split; [exact Ri|]. rewrite I2 by assumption. exact Ii.
      * rewrite <- Hoth in Hin by assumption. destruct (K2 x Hx Hin) as (i2 & R2 & E2). exists i2. split; [|exact E2]. destruct (Hx1 x Hx Hne) as [_ Ex]. inversion R2; subst; [eapply says; eauto; rewrite <- Ex; assumption].
    + intros x Hx Hno. assert (Hne : x <> child_of v) by (intros ->; rewrite <- Ek, Hk in Hno; discriminate Hno). rewrite I2; [apply (Hx1 x Hx Hne)|exact Hx|]. rewrite Hoth by assumption. exact Hno.
    + intros q Hq. destruct (O2 q Hq) as [Hq2|Hq2]; [|right; exact Hq2]. rewrite Ho1 in Hq2. destruct (decide (q = le64 (child_of v))) as [->|Hne]; [right; eauto|]. rewrite lookup_insert_ne in Hq2 by congruence. left. exact Hq2.
  - rewrite (children_none pad fuel b o Hb Ho Hn) in E. injection E as <-. split_and!; auto; [intros k v Hk Hd; exfalso; exact (Hn _ _ Hk Hd)|]. intros x Hx [w Hw]. exfalso. apply (Hn _ _ Hw). eexists. reflexivity.
Qed.
Lemma victim_spec r l : (forall k v, (k, v) ∈ l -> exists x, u64 x /\ k = le64 x) ->
  (b_victim r l = Done None /\ forall x v, u64 x -> (le64 x, v) ∈ l -> 0 < refcount r x) \/
  exists x v r', (le64 x, v) ∈ l /\ u64 x /\ refcount r x <= 0 /\ b_victim r l = Done (Some (x, r')) /\ forall y, refcount r' y = refcount r y.
Proof.
  induction l as [|[k v] l IH]; intros Hl; cbn [b_victim]; [left; split; [reflexivity|intros x v _ Hin; inversion Hin]|].
  destruct (Hl k v ltac:(left)) as (x & Hx & ->). unfold get_ino. rewrite le64_length, unle_le64 by exact Hx. cbn [Nat.eqb obind].
  assert (Hdoom : (0 < refcount r x /\ doom r x = (Err EBUSY, r)) \/ (refcount r x <= 0 /\ exists r', doom r x = (Ok tt, r') /\ forall y, refcount r' y = refcount r y)).
  { unfold doom, refcount. destruct (r !! x) as [[n d]|] eqn:Er.
    - destruct (Z.ltb_spec 0 n); [left; auto|right]. split; [lia|]. eexists. split; [reflexivity|]. intros y. destruct (decide (x = y)) as [<-|]; [rewrite lookup_insert, Er; reflexivity|rewrite lookup_insert_ne by assumption; reflexivity].
    - right. split; [lia|]. eexists. split; [reflexivity|]. intros y. destruct (decide (x = y)) as [<-|]; [rewrite lookup_insert, Er; reflexivity|rewrite lookup_insert_ne by assumption; reflexivity]. }
  destruct Hdoom as [[H0 ->]|(H0 & r' & -> & Hr')].
  - destruct IH as [[E H]|(y & w & r' & H1 & H2 & H3 & H4 & H5)]; [intros k w Hin; apply (Hl k w); right; exact Hin| |].
    + left. split; [exact E|]. intros y w Hy Hin. apply elem_of_cons in Hin as [Hin|Hin]; [|eauto]. assert (Eq : le64 y = le64 x) by congruence. apply le64_inj in Eq; [|assumption..]. subst. exact H0.
    + right. exists y, w, r'. split; [right; exact H1|]. auto.
  - right. exists x, v, r'. split; [left|]. auto.
Qed.

Section clean.
Context (pad : inode -> Z) (b0 : bdb) (r0 : refs) (Hb0 : clean_db b0) (OK : orphans_ok b0 r0).
Let D := goes b0 r0.
Let dir0 := dir_record b0.
(** [x] is an entry of a directory in [G] *)
Definition kid (G : list Z) (x : Z) : Prop := exists o, o ∈ G /\ dir0 o /\ is_Some (b_treei b0 !! (le64 o ++ le64 x)).
(** [q] is the name of an entry of a directory in [G] *)
Definition named (G : list Z) (q : bytes) : Prop := exists o k v, o ∈ G /\ dir0 o /\ b_treei b0 !! k = Some v /\ in_dir o k /\ q = le64 o ++ drop 16 v.
Lemma cut_u64 x : cut_off b0 r0 x -> u64 x.
Proof. destruct 1; assumption. Qed.
(** removed in the proper way *)
Definition good (o : Z) : Prop := D o /\ o <> ROOT_INO /\ (dir0 o -> sound_dir b0 o).
Lemma child_parent o x : good o -> dir0 o -> u64 x -> is_Some (b_treei b0 !! (le64 o ++ le64 x)) -> b_parent b0 x = Done (Ok o).
Proof.
  intros Ho Hd Hx [v Hv]. destruct (proj2 (proj2 Ho) Hd _ v Hv) as (_ & Ek & Hp); [eexists; reflexivity|]. destruct (proj2 Hb0 _ _ Hv) as [_ Bv].
  assert (x = child_of v) as -> by (eapply pair_inj; [exact Hx|apply bytes_u64; exact Bv|exact Ek]). exact Hp.
Qed.
Lemma not_null o : cut_off b0 r0 o -> o <> INVALID_INO.
Proof. intros H ->. exact (io_null _ _ OK H). Qed.
Lemma kid_cut G x : Forall good G -> u64 x -> kid G x -> cut_off b0 r0 x /\ ~ is_Some (b_orphans b0 !! le64 x).
Proof.
  intros HG Hx (o & Ho & Hd & Hin). rewrite Forall_forall in HG. pose proof (HG o Ho) as Hg. split; [destruct Hg as [[] _]; eapply cut_child; eassumption|].
  intros Hor. pose proof (child_parent o x Hg Hd Hx Hin) as Hp. pose proof (io_parent _ _ OK x o Hx Hor Hp) as ->. apply (not_null INVALID_INO); [apply Hg|reflexivity].
Qed.
Lemma not_root G x : Forall good G -> u64 x -> is_Some (b_orphans b0 !! le64 x) \/ kid G x -> x <> ROOT_INO.
Proof.
  intros HG Hx H ->. destruct H as [Ho|(o & Ho & Hd & Hin)]; [pose proof (io_parent _ _ OK ROOT_INO ROOT_INO Hx Ho eq_refl) as E; discriminate E|].
  rewrite Forall_forall in HG. pose proof (child_parent o ROOT_INO (HG o Ho) Hd Hx Hin) as E. unfold b_parent in E. cbn in E. injection E as E. apply (HG o Ho). symmetry. exact E.
Qed.
Lemma kid_owner G o x : Forall good G -> u64 x -> kid G x -> b_parent b0 x = Done (Ok o) -> o ∈ G.
Proof. intros HG Hx (o' & Ho & Hd & Hin) H2. rewrite Forall_forall in HG. pose proof (child_parent o' x (HG o' Ho) Hd Hx Hin) as H1. assert (o = o') as -> by congruence. exact Ho. Qed.

(** the loop, after the inodes [G] have been removed *)
Record gone (G : list Z) (b : bdb) (r : refs) : Prop := {
  go_nodup : NoDup G;
  go_all : Forall good G;
  go_clean : clean_db b;
  go_refs : forall x, refcount r x = refcount r0 x;
  go_keys : forall k, is_Some (b_orphans b !! k) -> exists x, u64 x /\ k = le64 x;
  go_orph : forall x, u64 x -> is_Some (b_orphans b !! le64 x) <-> x ∉ G /\ (is_Some (b_orphans b0 !! le64 x) \/ kid G x);
  go_in : forall x, x ∈ G -> is_Some (b_orphans b0 !! le64 x) \/ kid G x;
  go_tree1 : forall o k, o ∈ G -> dir0 o -> in_dir o k -> b_treei b !! k = None;
  go_tree2 : forall k, (forall o, o ∈ G -> dir0 o -> ~ in_dir o k) -> b_treei b !! k = b_treei b0 !! k;
  go_name1 : forall q, named G q -> b_treen b !! q = None;
  go_name2 : forall q, ~ named G q -> b_treen b !! q = b_treen b0 !! q;
  go_ino1 : forall x, x ∈ G -> b_inodes b !! le64 x = None;
  go_ino2 : forall x, u64 x -> x ∉ G -> ~ kid G x -> b_inodes b !! le64 x = b_inodes b0 !! le64 x;
  go_ino3 : forall x, u64 x -> x ∉ G -> kid G x -> exists i, record_says b0 x (Ok i) /\ b_inodes b !! le64 x = Some (ser pad (set_parent 0 i));
  go_links : forall x, u64 x -> x ∉ G -> b_links b !! le64 x = b_links b0 !! le64 x;
  go_link1 : forall x, x ∈ G -> has_type b0 x S_IFLNK -> b_links b !! le64 x = None;
  go_meta : b_meta b = b_meta b0 }.
Lemma gone_start : gone [] b0 r0.
Proof.
  assert (Hk : forall x, ~ kid [] x) by (intros x (o & Ho & _); inversion Ho). assert (Hq : forall q, ~ named [] q) by (intros q (o & k & v & Ho & _); inversion Ho).
  constructor; auto; try (intros; exfalso; match goal with H : _ ∈ [] |- _ => inversion H end).
  - constructor.
  - apply (io_keys _ _ OK).
  - intros x Hx. split; [intros H; split; [intros Hin; inversion Hin|left; exact H]|intros [_ [H|H]]; [exact H|destruct (Hk _ H)]].
  - intros q H. destruct (Hq _ H).
  - intros x _ _ H. destruct (Hk _ H).
Qed.
(** the record of an orphan: as before, but for the parent *)
Lemma gone_record G b r o : gone G b r -> u64 o -> o ∉ G -> is_Some (b_orphans b0 !! le64 o) \/ kid G o ->
  b_inodes b !! le64 o = b_inodes b0 !! le64 o \/ exists i, record_says b0 o (Ok i) /\ b_inodes b !! le64 o = Some (ser pad (set_parent 0 i)).
Proof.
  intros H Ho Hn [Hor|Hk]; [left|right; apply (go_ino3 _ _ _ H); assumption]. apply (go_ino2 _ _ _ H); auto. intros Hk. destruct (kid_cut G o (go_all _ _ _ H) Ho Hk). contradiction.
Qed.
Lemma says_same b b' x rr : b_inodes b' !! le64 x = b_inodes b !! le64 x -> record_says b x rr -> record_says b' x rr.
Proof. intros E [H|v H M|v i p q pd H M T O]; [apply says_absent|eapply says_garbage|eapply says]; eauto; rewrite E; exact H. Qed.
Lemma says_ser b x i : real (b_inodes b) -> inode_ok i -> b_inodes b !! le64 x = Some (ser pad (set_parent 0 i)) -> record_says b x (Ok (set_parent 0 i)).
Proof using Type.
  clear OK Hb0. subst D dir0. clear b0 r0.
  intros Hr (O1 & O2 & O3) E. assert (Oi : inode_ok (set_parent 0 i)) by (unfold inode_ok, set_parent; cbn [i_flags i_parent i_attr]; split_and!; try assumption; unfold u64; lia).
  destruct (record_total b x Hr) as (rr & Hs & Hp). rewrite E in Hp. pose proof (parse_ser_inode 0 0 0 (pad (set_parent 0 i)) (set_parent 0 i) [] Oi eq_refl) as P. rewrite app_nil_r in P. unfold ser in Hp. rewrite P in Hp. injection Hp as <-. exact Hs.
Qed.
Lemma gone_dir G b r o : gone G b r -> u64 o -> o ∉ G -> is_Some (b_orphans b0 !! le64 o) \/ kid G o -> forall t, has_type b o t <-> has_type b0 o t.
Proof.
  intros H Ho Hn Hor t. destruct (gone_record G b r o H Ho Hn Hor) as [E|(i & Hi & E)].
  - split; intros (j & Hj & Hf); exists j; (split; [|exact Hf]); eapply says_same; try exact Hj; [symmetry; exact E|exact E].
  - assert (Oi : inode_ok i) by (inversion Hi; assumption). pose proof (says_ser b o i (proj1 (go_clean _ _ _ H)) Oi E) as Hs.
    split; intros (j & Hj & Hf); [exists i|exists (set_parent 0 i)]; (split; [assumption|]).
    + pose proof (C73_one_reading _ _ _ _ Hj Hs) as Ej. injection Ej as ->. exact Hf.
    + pose proof (C73_one_reading _ _ _ _ Hj Hi) as Ej. injection Ej as ->. exact Hf.
Qed.
(** one round *)
Lemma gone_round G b r o b' r' : gone G b r -> u64 o -> is_Some (b_orphans b !! le64 o) -> refcount r o <= 0 -> (forall y, refcount r' y = refcount r y) ->
  let newkid x := dir0 o /\ is_Some (b_treei b0 !! (le64 o ++ le64 x)) in (dir0 o -> sound_dir b0 o) ->
  clean_db b' -> (forall k, is_Some (b_orphans b' !! k) -> is_Some (b_orphans b !! k) \/ exists x, u64 x /\ k = le64 x) ->
  (forall x, u64 x -> is_Some (b_orphans b' !! le64 x) <-> x <> o /\ (is_Some (b_orphans b !! le64 x) \/ newkid x)) ->
  (forall k, dir0 o -> in_dir o k -> b_treei b' !! k = None) ->
  (forall k, (dir0 o -> ~ in_dir o k) -> b_treei b' !! k = b_treei b !! k) ->
  (forall q, named [o] q -> b_treen b' !! q = None) -> (forall q, ~ named [o] q -> b_treen b' !! q = b_treen b !! q) -> (forall q, b_treen b !! q = None -> b_treen b' !! q = None) ->
  b_inodes b' !! le64 o = None -> (forall x, u64 x -> x <> o -> ~ newkid x -> b_inodes b' !! le64 x = b_inodes b !! le64 x) ->
  (forall x, u64 x -> x <> o -> newkid x -> exists i, record_says b x (Ok i) /\ b_inodes b' !! le64 x = Some (ser pad (set_parent 0 i))) ->
  (forall x, u64 x -> x <> o -> b_links b' !! le64 x = b_links b !! le64 x) -> (has_type b0 o S_IFLNK -> b_links b' !! le64 o = None) -> b_meta b' = b_meta b -> gone (o :: G) b' r'.
Proof.
  intros H Ho Hor Hr Hr' newkid Hsd A1 A2 A3 A4 A5 B1 B2 B0 A6 A7 A8 A9 B3 A10. pose proof (go_all _ _ _ H) as HG. apply (go_orph _ _ _ H o Ho) in Hor as [Hn Hor].
  assert (HD : D o). { split; [|rewrite <- (go_refs _ _ _ H); exact Hr]. destruct Hor as [Hor|Hk]; [apply cut_orphan; assumption|apply (kid_cut G o HG Ho Hk)]. }
  assert (Hgo : good o) by (split; [exact HD|split; [exact (not_root G o HG Ho Hor)|exact Hsd]]).
  assert (Hkid : forall x, kid (o :: G) x <-> kid G x \/ newkid x).
  { intros x. split; [intros (o' & Hin & Hd & He); apply elem_of_cons in Hin as [->|Hin]; [right; split; assumption|left; exists o'; auto]|intros [(o' & Hin & Hd & He)|[Hd He]]; [exists o'; split; [right; exact Hin|auto]|exists o; split; [left|auto]]]. }
  assert (Hnew : forall x, u64 x -> newkid x -> x <> o /\ x ∉ G /\ ~ kid G x /\ ~ is_Some (b_orphans b0 !! le64 x)).
  { intros x Hx [Hd He]. pose proof (child_parent o x Hgo Hd Hx He) as Hp. assert (Hno : ~ is_Some (b_orphans b0 !! le64 x)). { intros Hox. pose proof (io_parent _ _ OK x o Hx Hox Hp) as ->. apply (not_null INVALID_INO); [apply HD|reflexivity]. }
    assert (Hnk : ~ kid G x) by (intros Hk; apply Hn; exact (kid_owner G o x HG Hx Hk Hp)). split_and!; try assumption.
    - intros ->. destruct Hor; contradiction.
    - intros Hin. destruct (go_in _ _ _ H x Hin); contradiction. }
  assert (HuG : forall o', o' ∈ G -> u64 o') by (intros o' Hin; rewrite Forall_forall in HG; apply cut_u64; apply (HG o' Hin)).
  constructor.
  - constructor; [exact Hn|apply (go_nodup _ _ _ H)].
  - constructor; [exact Hgo|exact HG].
  - exact A1.
  - intros x. rewrite Hr'. apply (go_refs _ _ _ H).
  - intros k Hk. destruct (A2 k Hk) as [Hk2|Hk2]; [apply (go_keys _ _ _ H k Hk2)|exact Hk2].
  - intros x Hx. rewrite (A3 x Hx), (go_orph _ _ _ H x Hx), not_elem_of_cons, Hkid. split; [intros (N & [(N2 & HH)|HH])|intros ((N & N2) & HH)].
    + split; [split; assumption|]. destruct HH; auto.
    + destruct (Hnew x Hx HH) as (_ & N2 & _). auto.
    + split; [exact N|]. destruct HH as [HH|[HH|HH]]; auto.
  - intros x Hin. rewrite Hkid. apply elem_of_cons in Hin as [->|Hin]; [destruct Hor; auto|]. destruct (go_in _ _ _ H x Hin); auto.
  - intros o' k Hin Hd Hk. apply elem_of_cons in Hin as [->|Hin]; [apply A4; assumption|]. assert (o' <> o) by (intros ->; contradiction).
    rewrite (A5 k ltac:(intros _ Hk2; apply H0; eapply in_dir_inj; eauto)). apply (go_tree1 _ _ _ H o'); assumption.
  - intros k Hk. rewrite A5; [|intros Hd; apply (Hk o); [left|exact Hd]]. apply (go_tree2 _ _ _ H). intros o' Hin. apply Hk. right. exact Hin.
  - intros q (o' & k & v & Hin & Hrest). apply elem_of_cons in Hin as [->|Hin]; [apply B1; exists o, k, v; split; [left|exact Hrest]|]. apply B0, (go_name1 _ _ _ H). exists o', k, v. auto.
  - intros q Hq. rewrite B2; [apply (go_name2 _ _ _ H)|]; intros (o' & k & v & Hin & Hrest); apply Hq; exists o', k, v; (split; [|exact Hrest]); [right; exact Hin|apply elem_of_list_singleton in Hin as ->; left].
  - intros x Hin. apply elem_of_cons in Hin as [->|Hin]; [exact A6|]. rewrite A7; [apply (go_ino1 _ _ _ H x Hin)|apply HuG; exact Hin|intros ->; contradiction|]. intros Hk. destruct (Hnew x (HuG x Hin) Hk) as (_ & N & _). contradiction.
  - intros x Hx Hnin Hnk. apply not_elem_of_cons in Hnin as [N1 N2]. rewrite A7; [|exact Hx|exact N1|intros Hk; apply Hnk, Hkid; auto]. apply (go_ino2 _ _ _ H); auto. intros Hk. apply Hnk, Hkid. auto.
  - intros x Hx Hnin Hk. apply not_elem_of_cons in Hnin as [N1 N2]. apply Hkid in Hk as [Hk|Hk].
    + rewrite A7; [apply (go_ino3 _ _ _ H); assumption|exact Hx|exact N1|]. intros Hk2. destruct (Hnew x Hx Hk2) as (_ & _ & N & _). contradiction.
    + destruct (A8 x Hx N1 Hk) as (i & Hi & E). exists i. split; [|exact E]. destruct (Hnew x Hx Hk) as (_ & _ & N & _). eapply says_same; [|exact Hi]. symmetry. apply (go_ino2 _ _ _ H); assumption.
  - intros x Hx Hnin. apply not_elem_of_cons in Hnin as [N1 N2]. rewrite A9 by assumption. apply (go_links _ _ _ H); assumption.
  - intros x Hin Ht. apply elem_of_cons in Hin as [->|Hin]; [apply B3; exact Ht|]. rewrite A9; [apply (go_link1 _ _ _ H); assumption|apply HuG; exact Hin|intros ->; contradiction].
  - rewrite A10. apply (go_meta _ _ _ H).
Qed.
Lemma del_some (m : table) o x : u64 o -> u64 x -> is_Some (delete (le64 o) m !! le64 x) <-> x <> o /\ is_Some (m !! le64 x).
Proof.
  intros Ho Hx. destruct (Z.eq_dec x o) as [->|Hne]; [rewrite lookup_delete; split; [intros [? ?]; discriminate|intros [N _]; contradiction]|].
  rewrite lookup_delete_ne; [tauto|]. intros E. apply Hne. symmetry. apply le64_inj; assumption.
Qed.
Lemma del_ne (m : table) o x : u64 o -> u64 x -> x <> o -> delete (le64 o) m !! le64 x = m !! le64 x.
Proof. intros Ho Hx Hne. apply lookup_delete_ne. intros E. apply Hne. symmetry. apply le64_inj; assumption. Qed.
(** the first entry of a directory that is not sound *)
Lemma sound_dec b o k v : clean_db b -> b_treei b !! k = Some v -> {sound_child b o k v} + {~ sound_child b o k v}.
Proof.
  intros Hb Hk. unfold sound_child. destruct (malformed_dec 16 v) as [M|M]; [right; intros (N & _); contradiction|]. destruct (decide (k = le64 o ++ le64 (child_of v))) as [E|E]; [|right; intros (_ & N & _); contradiction].
  destruct (b_parent b (child_of v)) as [[p|e]| | |]; try (right; intros (_ & _ & N); discriminate N). destruct (Z.eq_dec p o) as [->|Ne]; [left; auto|right; intros (_ & _ & N); injection N as N; contradiction].
Qed.
Lemma trips_dec b v : {trips b v} + {~ trips b v}.
Proof.
  unfold trips. destruct (malformed_dec 16 v) as [M|M]; [left; left; exact M|]. destruct (b_parent b (child_of v)) as [[p|e]| | |] eqn:Ep; try (right; intros [N|(p' & v' & N & _)]; [contradiction|discriminate N]).
  destruct (Z.eq_dec p INVALID_INO) as [Ez|Ez]; [right; intros [N|(p' & v' & N & N2 & _)]; [contradiction|injection N as <-; contradiction]|].
  destruct (b_treei b !! (le64 p ++ le64 (child_of v))) as [w|] eqn:Ew; [|right; intros [N|(p' & v' & N & _ & N2 & _)]; [contradiction|injection N as <-; congruence]].
  destruct (malformed_dec 16 w) as [Mw|Mw]; [left; right; exists p, w; auto|right; intros [N|(p' & v' & N & _ & N2 & N3)]; [contradiction|injection N as <-; rewrite Ew in N2; injection N2 as <-; contradiction]].
Qed.
Lemma all_sound b o : clean_db b -> sound_dir b o \/ exists k v, b_treei b !! k = Some v /\ in_dir o k /\ ~ sound_child b o k v /\
  forall k' v', b_treei b !! k' = Some v' -> in_dir o k' -> blt k' k -> sound_child b o k' v'.
Proof.
  intros Hb. assert (HS := entries_sorted (fun k : bytes => k) (b_treei b)).
  assert (Hin : forall k v, (k, v) ∈ all_of (b_treei b) <-> b_treei b !! k = Some v) by (intros k v; apply elem_of_entries). fold (all_of (b_treei b)) in HS.
  assert (G : forall l, StronglySorted (kle (fun k : bytes => k)) l -> (forall k v, (k, v) ∈ l -> b_treei b !! k = Some v) -> (forall k v, (k, v) ∈ l -> in_dir o k -> sound_child b o k v) \/
    exists k v, (k, v) ∈ l /\ in_dir o k /\ ~ sound_child b o k v /\ forall k' v', (k', v') ∈ l -> in_dir o k' -> blt k' k -> sound_child b o k' v').
  { induction 1 as [|[k v] l Hl IH Hx]; intros Hm; [left; intros k v N; inversion N|].
    assert (Hd : (in_dir o k /\ ~ sound_child b o k v) \/ (in_dir o k -> sound_child b o k v)).
    { destruct (in_dir_dec o k) as [Hi|Hi]; [|right; intros; contradiction]. destruct (sound_dec b o k v Hb (Hm k v ltac:(left))); auto. }
    destruct Hd as [[Hi Hu]|Hok].
    - right. exists k, v. split; [left|]. split; [exact Hi|]. split; [exact Hu|]. intros k' v' Hin' _ Hlt. exfalso. apply elem_of_cons in Hin' as [E|Hin']; [injection E as -> ->; exact (blt_irrefl _ Hlt)|].
      rewrite Forall_forall in Hx. pose proof (Hx _ Hin') as Hle. unfold kle in Hle. cbn [fst] in Hle. exact (blt_irrefl _ (ble_lt_trans _ _ _ Hle Hlt)).
    - destruct IH as [IH|(k2 & v2 & I1 & I2 & I3 & I4)]; [intros k' v' H'; apply Hm; right; exact H'| |].
      + left. intros k' v' H'. apply elem_of_cons in H' as [E|H']; [injection E as -> ->; exact Hok|apply IH; exact H'].
      + right. exists k2, v2. split; [right; exact I1|]. split; [exact I2|]. split; [exact I3|]. intros k' v' H'. apply elem_of_cons in H' as [E|H']; [injection E as -> ->; intros Hi _; exact (Hok Hi)|apply I4; exact H']. }
  destruct (G _ HS (fun k v => proj1 (Hin k v))) as [H|(k & v & I1 & I2 & I3 & I4)]; [left; intros k v Hk; apply H, Hin, Hk|right].
  exists k, v. split; [apply Hin; exact I1|]. split; [exact I2|]. split; [exact I3|]. intros k' v' Hk'. apply I4, Hin, Hk'.
Qed.
(** whose child an inode is does not depend on what was removed so far *)
Lemma gone_parent G b r o : gone G b r -> u64 o -> o ∉ G -> o <> INVALID_INO -> o <> ROOT_INO -> forall k v, is_bytes v -> sound_child b o k v <-> sound_child b0 o k v.
Proof.
  intros H Ho Hn Hz Hro k v Bv. pose proof (go_all _ _ _ H) as HG. pose proof (bytes_u64 v Bv) as Hc. unfold sound_child. set (c := child_of v) in *.
  assert (E : b_parent b c = Done (Ok o) <-> b_parent b0 c = Done (Ok o)); [|rewrite E; reflexivity].
  assert (N0 : is_Some (b_orphans b0 !! le64 c) \/ kid G c -> b_parent b0 c <> Done (Ok o)) by (intros [Hox|Hk] Hp; [apply Hz; exact (io_parent _ _ OK c o Hc Hox Hp)|apply Hn; exact (kid_owner G o c HG Hc Hk Hp)]).
  destruct (decide (c ∈ G)) as [Hin|Hnin].
  - split; intros Hp; exfalso; [|exact (N0 (go_in _ _ _ H c Hin) Hp)]. unfold b_parent in Hp. rewrite (go_ino1 _ _ _ H c Hin) in Hp. destruct (c =? ROOT_INO); [injection Hp as Hp; apply Hn; rewrite <- Hp; exact Hin|discriminate Hp].
  - destruct (b_orphans b !! le64 c) as [w|] eqn:Ew.
    + destruct (proj1 (go_orph _ _ _ H c Hc) ltac:(eauto)) as [_ Hor]. destruct (gone_record G b r c H Hc Hnin Hor) as [Er|(i & Hi & Er)]; [unfold b_parent; rewrite Er; reflexivity|].
      split; intros Hp; exfalso; [|exact (N0 Hor Hp)]. assert (Hcr : c <> ROOT_INO) by exact (not_root G c HG Hc Hor).
      assert (Oi : inode_ok i) by (inversion Hi; assumption). pose proof (says_ser b c i (proj1 (go_clean _ _ _ H)) Oi Er) as Hs. destruct (parent_says b c (proj1 (go_clean _ _ _ H)) Hcr) as (rr & Hr1 & Hp1). pose proof (C73_one_reading _ _ _ _ Hr1 Hs) as ->. rewrite Hp1 in Hp. cbn in Hp. injection Hp as Hp. apply Hz. symmetry. exact Hp.
    + assert (Hnk : ~ kid G c). { intros Hk. destruct (proj2 (go_orph _ _ _ H c Hc) (conj Hnin (or_intror Hk))) as [w' Hw]. congruence. }
      unfold b_parent. rewrite (go_ino2 _ _ _ H c Hc Hnin Hnk). reflexivity.
Qed.
Lemma gone_step G b r o r' : gone G b r -> u64 o -> is_Some (b_orphans b !! le64 o) -> refcount r o <= 0 -> (forall y, refcount r' y = refcount r y) ->
  (exists b', b_reap pad b o = Done b' /\ gone (o :: G) b' r') \/
  (D o /\ dir0 o /\ ~ sound_dir b0 o /\ (b_reap pad b o = Crash \/ b_reap pad b o = Diverge)).
Proof.
  intros H Ho Hor Hr Hr'. pose proof (go_clean _ _ _ H) as Hb. pose proof (go_all _ _ _ H) as HG. pose proof Hor as Hor2. apply (go_orph _ _ _ H o Ho) in Hor2 as [Hn Hor2].
  pose proof (gone_dir G b r o H Ho Hn Hor2) as Hty. pose proof (Hty S_IFDIR : dir_record b o <-> dir0 o) as Hdir.
  (* what does not touch the entries of directories *)
  assert (Plain : ~ dir0 o -> forall b', b_inodes b' = delete (le64 o) (b_inodes b) -> b_orphans b' = delete (le64 o) (b_orphans b) -> b_treei b' = b_treei b -> b_treen b' = b_treen b -> b_meta b' = b_meta b ->
    (b_links b' = b_links b /\ ~ has_type b0 o S_IFLNK \/ b_links b' = delete (le64 o) (b_links b)) -> gone (o :: G) b' r').
  { intros Hnd b' Ei Eo Et En Em El. apply (gone_round G b r o b' r' H Ho Hor Hr Hr').
    - intros Hd. contradiction.
    - split; [rewrite Ei; apply real_del, Hb|rewrite Et; apply Hb].
    - intros k. rewrite Eo. intros [v Hv]. apply lookup_delete_Some in Hv as [_ Hv]. left. eauto.
    - intros x Hx. rewrite Eo, del_some by assumption. split; [intros [N HH]; auto|intros [N [HH|[HH _]]]; [auto|contradiction]].
    - intros k Hd. contradiction.
    - intros k _. rewrite Et. reflexivity.
    - intros q (o' & k & v & Hin & Hd & _). apply elem_of_list_singleton in Hin as ->. contradiction.
    - intros q _. rewrite En. reflexivity.
    - intros q Hq. rewrite En. exact Hq.
    - rewrite Ei. apply lookup_delete.
    - intros x Hx Hne _. rewrite Ei. apply del_ne; assumption.
    - intros x _ _ [Hd _]. contradiction.
    - intros x Hx Hne. destruct El as [[-> _]| ->]; [reflexivity|apply del_ne; assumption].
    - intros Ht. destruct El as [[_ N]| ->]; [contradiction|apply lookup_delete].
    - exact Em. }
  destruct (record_total b o (proj1 Hb)) as (rr & Hs & Hp). unfold b_reap. destruct (b_inodes b !! le64 o) as [w|] eqn:Ew.
  - rewrite Hp. cbn [obind]. destruct rr as [i|e].
    + destruct (Z.eqb_spec (ftype (a_mode (i_attr i))) S_IFLNK) as [El|El].
      * cbn [obind]. left. eexists. split; [reflexivity|]. apply Plain; try reflexivity; [|right; reflexivity]. intros Hd. apply Hdir in Hd as (j & Hj & Hf). pose proof (C73_one_reading _ _ _ _ Hj Hs) as Ej. injection Ej as ->. rewrite El in Hf. discriminate Hf.
      * destruct (Z.eqb_spec (ftype (a_mode (i_attr i))) S_IFDIR) as [Ed|Ed].
        -- assert (Hd : dir0 o) by (apply Hdir; exists i; auto).
           assert (HD : D o). { split; [|rewrite <- (go_refs _ _ _ H); exact Hr]. destruct Hor2 as [Hor2|Hk]; [apply cut_orphan; assumption|apply (kid_cut G o HG Ho Hk)]. }
           assert (Hz : o <> INVALID_INO) by (apply not_null, HD). assert (Hro : o <> ROOT_INO) by exact (not_root G o HG Ho Hor2).
           assert (Hsame : forall k, in_dir o k -> b_treei b !! k = b_treei b0 !! k).
           { intros k Hk. apply (go_tree2 _ _ _ H). intros o' Hin _ Hk'. apply Hn. rewrite Forall_forall in HG. assert (o' = o) as <- by (eapply in_dir_inj; [apply cut_u64; apply (HG o' Hin)|exact Ho|eassumption..]). exact Hin. }
           destruct (all_sound b o Hb) as [Hsnd|(k & v & Hk & Hio & Hu & Hfst)].
           2: { right. split; [exact HD|]. split; [exact Hd|]. split.
             - intros Hs0. apply Hu. apply (gone_parent G b r o H Ho Hn Hz Hro); [rewrite (Hsame k Hio) in Hk; apply (proj2 Hb0 _ _ Hk)|]. apply Hs0; [rewrite <- Hsame by exact Hio; exact Hk|exact Hio].
             - destruct (children_unsound pad o Ho Hz (S (size (b_treei b))) b k v Hb (Nat.lt_succ_diag_r _) Hk Hio Hu Hfst) as [T1 T2]. destruct (trips_dec b v) as [T|T]; [left; rewrite (T1 T)|right; rewrite (T2 T)]; reflexivity. }
           assert (Hsd : sound_dir b0 o). { intros k v Hk Hio. apply (gone_parent G b r o H Ho Hn Hz Hro); [apply (proj2 Hb0 _ _ Hk)|]. apply Hsnd; [rewrite Hsame by exact Hio; exact Hk|exact Hio]. }
           destruct (children_sound pad o Ho Hz (S (size (b_treei b))) b Hb (Nat.lt_succ_diag_r _) Hsnd) as (b1 & E1 & _ & F1 & F2 & F3 & F4).
           destruct (children_more pad o Ho Hz Hro _ b b1 Hb Hsnd E1) as (C2 & L2 & M2 & N1a & N2 & N0 & K2 & I2 & O2).
           rewrite E1. cbn [obind]. left. eexists. split; [reflexivity|]. cbn [bset_orphans bset_inodes].
           assert (Hsame2 : forall x, b_treei b !! (le64 o ++ le64 x) = b_treei b0 !! (le64 o ++ le64 x)) by (intros x; apply Hsame; eexists; reflexivity).
           assert (Hnone : forall x, ~ (dir0 o /\ is_Some (b_treei b0 !! (le64 o ++ le64 x))) -> b_treei b !! (le64 o ++ le64 x) = None).
           { intros x Hx. rewrite Hsame2. destruct (b_treei b0 !! (le64 o ++ le64 x)) eqn:Ex; [exfalso; apply Hx; split; [exact Hd|eauto]|reflexivity]. }
           apply (gone_round G b r o _ r' H Ho Hor Hr Hr').
           ++ intros _. exact Hsd.
           ++ split; [apply real_del, C2|apply C2].
           ++ cbn [b_orphans b_inodes b_treei b_treen b_links b_meta bset_orphans bset_inodes]. intros k [v Hv]. apply lookup_delete_Some in Hv as [_ Hv]. apply O2. eauto.
           ++ intros x Hx. cbn [b_orphans b_inodes b_treei b_treen b_links b_meta bset_orphans bset_inodes]. rewrite del_some by assumption. split; intros [N HH]; (split; [exact N|]).
              ** destruct (b_treei b0 !! (le64 o ++ le64 x)) as [u|] eqn:Eu; [right; split; [exact Hd|eauto]|left]. destruct (F4 x Hx) as [Q _]; [rewrite Hsame2; exact Eu|]. rewrite Q in HH. exact HH.
              ** destruct (b_treei b0 !! (le64 o ++ le64 x)) as [u|] eqn:Eu; [rewrite F3; [eauto|exact Hx|rewrite Hsame2; eauto]|]. destruct (F4 x Hx) as [Q _]; [rewrite Hsame2; exact Eu|]. rewrite Q. destruct HH as [HH|[_ [? HH]]]; [exact HH|discriminate HH].
           ++ intros k _ Hk. cbn [b_orphans b_inodes b_treei b_treen b_links b_meta bset_orphans bset_inodes]. apply F1. exact Hk.
           ++ intros k Hk. cbn [b_orphans b_inodes b_treei b_treen b_links b_meta bset_orphans bset_inodes]. apply F2, Hk, Hd.
           ++ intros q (o' & k & v & Hin & _ & Hk & Hio & ->). apply elem_of_list_singleton in Hin as ->. cbn [b_orphans b_inodes b_treei b_treen b_links b_meta bset_orphans bset_inodes]. apply (N1a k); [rewrite Hsame by exact Hio; exact Hk|exact Hio].
           ++ intros q Hq. cbn [b_orphans b_inodes b_treei b_treen b_links b_meta bset_orphans bset_inodes]. apply N2. intros k v Hk Hio ->. apply Hq. exists o, k, v. split; [left|]. rewrite Hsame in Hk by exact Hio. auto.
           ++ intros q Hq. apply N0. exact Hq.
           ++ cbn [b_orphans b_inodes b_treei b_treen b_links b_meta bset_orphans bset_inodes]. apply lookup_delete.
           ++ intros x Hx Hne Hnk. cbn [b_orphans b_inodes b_treei b_treen b_links b_meta bset_orphans bset_inodes]. rewrite del_ne by assumption. apply I2; [exact Hx|]. apply Hnone. exact Hnk.
           ++ intros x Hx Hne [_ Hk]. cbn [b_orphans b_inodes b_treei b_treen b_links b_meta bset_orphans bset_inodes]. rewrite del_ne by assumption. apply K2; [exact Hx|]. rewrite Hsame2. exact Hk.
           ++ intros x _ _. cbn [b_orphans b_inodes b_treei b_treen b_links b_meta bset_orphans bset_inodes]. rewrite L2. reflexivity.
           ++ intros Ht. apply Hty in Ht as (j & Hj & Hf). pose proof (C73_one_reading _ _ _ _ Hj Hs) as Ej. injection Ej as ->. contradiction.
           ++ cbn [b_orphans b_inodes b_treei b_treen b_links b_meta bset_orphans bset_inodes]. exact M2.
        -- cbn [obind]. left. eexists. split; [reflexivity|]. apply Plain; try reflexivity; [|left; split; [reflexivity|]]; intros Hd; [apply Hdir in Hd|apply Hty in Hd]; destruct Hd as (j & Hj & Hf); pose proof (C73_one_reading _ _ _ _ Hj Hs) as Ej; injection Ej as ->; contradiction.
    + cbn [obind]. left. eexists. split; [reflexivity|]. apply Plain; try reflexivity; [|left; split; [reflexivity|]]; intros Hd; [apply Hdir in Hd|apply Hty in Hd]; destruct Hd as (j & Hj & Hf); pose proof (C73_one_reading _ _ _ _ Hj Hs) as Ej; discriminate Ej.
  - cbn [obind]. left. eexists. split; [reflexivity|]. apply Plain; try reflexivity; [|cbn; symmetry; apply delete_notin; exact Ew|left; split; [reflexivity|]]; intros Hd; [apply Hdir in Hd|apply Hty in Hd]; destruct Hd as (j & Hj & Hf); subst rr; pose proof (C73_one_reading _ _ _ _ Hj Hs) as Ej; discriminate Ej.
Qed.
(** it cannot go on forever *)
Lemma gone_bound G b r : gone G b r -> (length G <= size (b_inodes b0) + size (b_orphans b0))%nat.
Proof.
  intros H. pose proof (go_all _ _ _ H) as HG. rewrite Forall_forall in HG. assert (HN : NoDup (map le64 G)).
  { pose proof (go_nodup _ _ _ H) as HN. clear H. induction HN as [|x l Hx HN IH]; [constructor|]. cbn [map]. constructor; [|apply IH; intros y Hy; apply HG; right; exact Hy].
    intros Hin. apply elem_of_list_In, in_map_iff in Hin as (y & Ey & Hy). apply elem_of_list_In in Hy. apply Hx. assert (y = x) as <- by (apply le64_inj; [apply cut_u64, HG; right; exact Hy|apply cut_u64, HG; left|exact Ey]). exact Hy. }
  rewrite <- (map_length le64 G), <- (size_list_to_set (C := gset bytes) _ HN), <- !size_dom.
  transitivity (size (dom (b_inodes b0) ∪ dom (b_orphans b0) : gset bytes)).
  - apply subseteq_size. intros k Hk. apply elem_of_list_to_set, elem_of_list_In, in_map_iff in Hk as (x & <- & Hx). apply elem_of_list_In in Hx. apply elem_of_union. destruct (go_in _ _ _ H x Hx) as [Hox|(o & Ho & Hd & Hk)]; [right; apply elem_of_dom; exact Hox|left].
    pose proof (HG x Hx) as Dx. pose proof (child_parent o x (HG o Ho) Hd (cut_u64 _ (proj1 (proj1 Dx))) Hk) as Hp. destruct (parent_record b0 x o Hp (proj1 (proj2 Dx)) (proj1 Hb0)) as [Hi _]. apply elem_of_dom. exact Hi.
  - rewrite size_union_alt. apply Nat.add_le_mono_l, subseteq_size. set_solver.
Qed.
Lemma gone_loop : forall fuel G b r, gone G b r -> (size (b_inodes b0) + size (b_orphans b0) < fuel + length G)%nat ->
  (exists G' b' r', b_clean_loop pad fuel b r = Done (b', r') /\ gone G' b' r' /\ forall x, u64 x -> is_Some (b_orphans b' !! le64 x) -> 0 < refcount r0 x) \/
  ((exists o, D o /\ dir0 o /\ ~ sound_dir b0 o) /\ (b_clean_loop pad fuel b r = Crash \/ b_clean_loop pad fuel b r = Diverge)).
Proof.
  induction fuel as [|fuel IH]; intros G b r H Hf; [pose proof (gone_bound G b r H); lia|]. cbn [b_clean_loop].
  assert (Hl : forall k v, (k, v) ∈ all_of (b_orphans b) -> exists x, u64 x /\ k = le64 x) by (intros k v Hin; apply elem_of_entries in Hin; apply (go_keys _ _ _ H); eauto).
  destruct (victim_spec r _ Hl) as [[E Hall]|(x & v & r' & Hin & Hx & Hr & E & Hr')]; rewrite E; cbn [obind].
  - left. exists G, b, r. split; [reflexivity|]. split; [exact H|]. intros x Hx [v Hv]. rewrite <- (go_refs _ _ _ H). apply (Hall x v Hx). apply elem_of_entries. exact Hv.
  - apply elem_of_entries in Hin. destruct (gone_step G b r x r' H Hx ltac:(eauto) Hr Hr') as [(b' & -> & H')|(S1 & S2 & S3 & [-> | ->])]; cbn [obind]; [apply (IH (x :: G) b' r' H'); cbn [length]; lia|right; split; [exists x; auto|auto]..].
Qed.
(** at the end everything that goes is gone *)
Lemma gone_end G b r : gone G b r -> (forall x, u64 x -> is_Some (b_orphans b !! le64 x) -> 0 < refcount r0 x) -> forall x, cut_off b0 r0 x -> is_Some (b_orphans b0 !! le64 x) \/ kid G x.
Proof.
  intros H Hend x. induction 1 as [x Hx Ho|o x Hx Hc IH Hr Hd Hin]; [left; exact Ho|right]. exists o. split; [|split; assumption]. destruct (decide (o ∈ G)) as [|Hn]; [assumption|exfalso].
  pose proof (cut_u64 o Hc) as Hu. specialize (Hend o Hu (proj2 (go_orph _ _ _ H o Hu) (conj Hn IH))). lia.
Qed.
Lemma gone_all G b r : gone G b r -> (forall x, u64 x -> is_Some (b_orphans b !! le64 x) -> 0 < refcount r0 x) -> forall x, x ∈ G <-> D x.
Proof.
  intros H Hend x. split; [intros Hin; pose proof (go_all _ _ _ H) as HG; rewrite Forall_forall in HG; apply HG; exact Hin|].
  intros [Hc Hr]. destruct (decide (x ∈ G)) as [|Hn]; [assumption|exfalso]. pose proof (cut_u64 x Hc) as Hu. specialize (Hend x Hu (proj2 (go_orph _ _ _ H x Hu) (conj Hn (gone_end G b r H Hend x Hc)))). lia.
Qed.
End clean.

(** ** What cleaning does (cache.cpp:1024-1090) *)
(** An entry of the tree: its key in the table of inode numbers and its record; the key of its name is
    that of the directory and the name in the record. *)
Definition entry_goes (b : bdb) (r : refs) (k v : bytes) (o : Z) : Prop := goes b r o /\ dir_record b o /\ b_treei b !! k = Some v /\ in_dir o k.
Record cleaned (b : bdb) (r : refs) (b' : bdb) (r' : refs) : Prop := {
  (** the orphans that stay are those that are cut off and still locked *)
  cl_orphans : forall k, is_Some (b_orphans b' !! k) <-> exists x, u64 x /\ k = le64 x /\ cut_off b r x /\ 0 < refcount r x;
  (** what goes is gone *)
  cl_gone : forall x, goes b r x -> b_inodes b' !! le64 x = None;
  cl_target : forall x, goes b r x -> has_type b x S_IFLNK -> b_links b' !! le64 x = None;
  cl_entry : forall k v o, entry_goes b r k v o -> b_treei b' !! k = None /\ b_treen b' !! (le64 o ++ drop 16 v) = None;
  (** nothing else changes, be it readable or not *)
  cl_record : forall x, u64 x -> ~ cut_off b r x -> b_inodes b' !! le64 x = b_inodes b !! le64 x;
  cl_links : forall x, u64 x -> ~ goes b r x -> b_links b' !! le64 x = b_links b !! le64 x;
  cl_tree : forall k, (forall v o, ~ entry_goes b r k v o) -> b_treei b' !! k = b_treei b !! k;
  cl_names : forall q, (forall k v o, entry_goes b r k v o -> q <> le64 o ++ drop 16 v) -> b_treen b' !! q = b_treen b !! q;
  cl_meta : b_meta b' = b_meta b;
  cl_refs : forall x, refcount r' x = refcount r x;
  (** a locked inode that is cut off keeps its record, up to the parent *)
  cl_locked : forall x, cut_off b r x -> 0 < refcount r x -> b_inodes b' !! le64 x = b_inodes b !! le64 x \/
     exists i, record_says b x (Ok i) /\ record_says b' x (Ok (set_parent 0 i)) }.
Lemma some_dir b k (G : list Z) : real (b_inodes b) -> (exists o, o ∈ G /\ dir_record b o /\ in_dir o k) \/ (forall o, o ∈ G -> dir_record b o -> ~ in_dir o k).
Proof.
  intros Hr. induction G as [|o G [(o' & H1 & H2)|IH]]; [right; intros o Ho; inversion Ho|left; exists o'; split; [right; exact H1|exact H2]|].
  assert (Hd : dir_record b o \/ ~ dir_record b o).
  { destruct (record_total b o Hr) as ([i|e] & Hs & _); [destruct (Z.eq_dec (ftype (a_mode (i_attr i))) S_IFDIR) as [Ef|Ef]; [left; exists i; auto|]|]; right; intros (j & Hj & Hf); pose proof (C73_one_reading _ _ _ _ Hj Hs) as Ej; [injection Ej as ->; contradiction|discriminate Ej]. }
  destruct Hd as [Hd|Hd]; [destruct (in_dir_dec o k) as [Hi|Hi]; [left; exists o; split; [left|auto]|]|]; right; intros o' Ho' Hd' Hi'; apply elem_of_cons in Ho' as [->|Ho']; try contradiction; exact (IH o' Ho' Hd' Hi').
Qed.
Theorem C73_clean_iff : forall pad b r, real_db b -> orphans_ok b r ->
  (in_order b r /\ exists b' r', b_clean_orphans pad b r = Done (b', r') /\ cleaned b r b' r') \/
  (~ in_order b r /\ (b_clean_orphans pad b r = Crash \/ b_clean_orphans pad b r = Diverge)).
Proof.
  intros pad b r (R1 & R2 & _) OK. assert (Hb : clean_db b) by (split; assumption). unfold b_clean_orphans.
  destruct (gone_loop pad b r Hb OK (S (size (b_inodes b) + size (b_orphans b))) [] b r (gone_start pad b r Hb OK) ltac:(cbn [length]; lia)) as [(G & b' & r' & E & H & Hend)|((o & S1 & S2 & S3) & E)].
  2: { right. split; [intros [_ N]; exact (S3 (N o S1 S2))|exact E]. }
  left. pose proof (gone_all pad b r G b' r' H Hend) as HG0. split.
  { split; [exact OK|]. intros o Ho Hd. apply HG0 in Ho. pose proof (go_all _ _ _ _ _ _ H) as Hall. rewrite Forall_forall in Hall. apply (proj2 (proj2 (Hall o Ho))). exact Hd. }
  exists b', r'. split; [exact E|]. pose proof (gone_all pad b r G b' r' H Hend) as HG. pose proof (gone_end pad b r G b' r' H Hend) as Hcut. cbn zeta in HG.
  assert (Hkc : forall x, u64 x -> kid b G x -> cut_off b r x) by (intros x Hx Hk; apply (kid_cut b r Hb OK G x (go_all _ _ _ _ _ _ H) Hx Hk)).
  assert (Hk1 : forall x, u64 x -> kid b G x -> cut_off b r x /\ ~ is_Some (b_orphans b !! le64 x)) by (intros x Hx Hk; apply (kid_cut b r Hb OK G x (go_all _ _ _ _ _ _ H) Hx Hk)).
  constructor.
  - intros k. split.
    + intros Hk. destruct (go_keys _ _ _ _ _ _ H k Hk) as (x & Hx & ->). exists x. split; [exact Hx|]. split; [reflexivity|]. split; [|apply Hend; assumption]. apply (go_orph _ _ _ _ _ _ H x Hx) in Hk as [_ [Ho|Hk]]; [apply cut_orphan; assumption|apply Hkc; assumption].
    + intros (x & Hx & -> & Hc & Hr). apply (go_orph _ _ _ _ _ _ H x Hx). split; [|apply Hcut; exact Hc]. intros Hin. apply HG in Hin as [_ Hr']. lia.
  - intros x Hx. apply (go_ino1 _ _ _ _ _ _ H). apply HG. exact Hx.
  - intros x Hx. apply (go_link1 _ _ _ _ _ _ H). apply HG. exact Hx.
  - intros k v o (Ho & Hd & Hk & Hin). apply HG in Ho. split; [eapply (go_tree1 _ _ _ _ _ _ H); eassumption|]. apply (go_name1 _ _ _ _ _ _ H). exists o, k, v. auto.
  - intros x Hx Hn. apply (go_ino2 _ _ _ _ _ _ H); [exact Hx|intros Hin; apply HG in Hin; apply Hn, Hin|]. intros Hk. apply Hn, Hkc; assumption.
  - intros x Hx Hn. apply (go_links _ _ _ _ _ _ H); [exact Hx|]. intros Hin. apply HG in Hin. contradiction.
  - intros k Hk. destruct (b_treei b !! k) as [v|] eqn:Ev.
    + rewrite <- Ev. apply (go_tree2 _ _ _ _ _ _ H). intros o Hin Hd Hio. apply (Hk v o). apply HG in Hin. split_and!; assumption.
    + destruct (some_dir b k G R1) as [(o & Hin & Hd & Hio)|Hno]; [eapply (go_tree1 _ _ _ _ _ _ H); eassumption|]. rewrite <- Ev. apply (go_tree2 _ _ _ _ _ _ H). exact Hno.
  - intros q Hq. apply (go_name2 _ _ _ _ _ _ H). intros (o & k & v & Hin & Hd & Hk & Hio & Eq). apply HG in Hin. apply (Hq k v o); [split_and!; assumption|exact Eq].
  - apply (go_meta _ _ _ _ _ _ H).
  - apply (go_refs _ _ _ _ _ _ H).
  - intros x Hc Hr. assert (Hn : x ∉ G) by (intros Hin; apply HG in Hin as [_ Hr']; lia). pose proof (cut_u64 b r x Hc) as Hu.
    destruct (Hcut x Hc) as [Ho|Hk].
    + left. apply (go_ino2 _ _ _ _ _ _ H); [exact Hu|exact Hn|]. intros Hk. destruct (Hk1 x Hu Hk). contradiction.
    + right. destruct (go_ino3 _ _ _ _ _ _ H x Hu Hn Hk) as (i & Hi & Ei). exists i. split; [exact Hi|]. apply (says_ser pad b'); [apply (proj1 (go_clean _ _ _ _ _ _ H))|inversion Hi; assumption|exact Ei].
Qed.

Theorem C73_clean : forall pad b r, real_db b -> in_order b r -> exists b' r', b_clean_orphans pad b r = Done (b', r') /\ cleaned b r b' r'.
Proof. intros pad b r Hb OK. destruct (C73_clean_iff pad b r Hb (proj1 OK)) as [[_ H]|[N _]]; [exact H|contradiction]. Qed.

(** Opening a damaged database whose orphans are in order: the mount starts, with no orphan left. *)
Theorem C73_open_contained : forall pad root b c, real_db b -> b_meta b !! NEXT_INO = Some c -> in_order b ∅ ->
  exists b' r', b_open pad root b = Done (b', r') /\ cleaned b ∅ b' r' /\ b_orphans b' = ∅.
Proof.
  intros pad root b c Hb Hm OK. destruct (C73_clean pad b ∅ Hb OK) as (b' & r' & E & H). exists b', r'.
  assert (H0 : b_orphans b' = ∅).
  { apply map_empty. intros k. destruct (b_orphans b' !! k) as [v|] eqn:Ek; [exfalso|reflexivity]. destruct (proj1 (cl_orphans _ _ _ _ H k) ltac:(eauto)) as (x & _ & _ & _ & Hr). unfold refcount in Hr. rewrite lookup_empty in Hr. lia. }
  split; [|auto]. unfold b_open, b_init. rewrite Hm. unfold b_tx_clean at 1. cbn [bt_db bt_refs]. rewrite E. cbn [obind fst snd bt_db bt_refs bt_hooks bt_rw]. unfold b_tx_clean. cbn [bt_db bt_refs].
  unfold b_clean_orphans. cbn [b_clean_loop]. rewrite H0, all_of_none. reflexivity.
Qed.
(** Removing an inode: [o] is an orphan from now on, its entry [w] in the directory [p] is gone, and the
    database is cleaned. *)
Definition detached (pad : inode -> Z) (b : bdb) (o p : Z) (i : inode) (w : bytes) : bdb :=
  BDb (b_meta b) (<[le64 o := ser pad (set_parent 0 i)]> (b_inodes b)) (delete (le64 p ++ le64 o) (b_treei b)) (delete (le64 p ++ drop 16 w) (b_treen b)) (<[le64 o := [0]]> (b_orphans b)) (b_links b).
Theorem C73_unlink_contained : forall pad t o i w, let b := bt_db t in
  real_db b -> u64 o -> o <> ROOT_INO -> record_says b o (Ok i) -> i_parent i <> INVALID_INO ->
  b_treei b !! (le64 (i_parent i) ++ le64 o) = Some w -> ~ malformed 16 w ->
  let b1 := detached pad b o (i_parent i) i w in in_order b1 (bt_refs t) ->
  exists t', b_unlink_ino pad t o = Done (Ok tt, t') /\ cleaned b1 (bt_refs t) (bt_db t') (bt_refs t') /\ bt_hooks t' = bt_hooks t /\ bt_rw t' = bt_rw t.
Proof.
  intros pad t o i w b (R1 & R2 & R3) Ho Hro Hs Hpz Hw Mw b1 OK.
  assert (Hp : b_parent b o = Done (Ok (i_parent i))). { destruct (parent_says b o R1 Hro) as (r & Hr1 & ->). rewrite (C73_one_reading b o _ _ Hr1 Hs). reflexivity. }
  destruct (R2 _ _ Hw) as [_ Bw]. destruct (proj2 (dirent_ok_iff w Bw) Mw) as [e Pe]. destruct (record_total b o R1) as (rr & Hr1 & He). pose proof (C73_one_reading _ _ _ _ Hr1 Hs) as ->.
  assert (E : b_make_orphan pad b o = Done (Ok tt, b1)).
  { unfold b_make_orphan. rewrite Hp. cbn [obind]. apply Z.eqb_neq in Hpz. rewrite Hpz, Hw, Pe. cbn [b_inodes bset_orphans bset_treen bset_treei]. destruct (b_inodes b !! le64 o); [|discriminate He]. rewrite He. cbn [obind]. rewrite (name_of w e Pe). reflexivity. }
  assert (Hb1 : real_db b1). { split_and!; [apply real_ins; [exact R1|apply le_bytes|apply ser_bytes]|apply real_del; exact R2|apply real_del; exact R3]. }
  destruct (C73_clean pad b1 (bt_refs t) Hb1 OK) as (b' & r' & Ec & Hc). exists (BTx b' r' (bt_hooks t) (bt_rw t)). split; [|auto].
  unfold b_unlink_ino. fold b. rewrite E. cbn [obind]. unfold b_tx_clean. cbn [bt_db bt_refs bwith_db bt_hooks bt_rw]. rewrite Ec. reflexivity.
Qed.

(** ** Sample: 7 is an orphan directory with the file "f" (8, locked by 1), the directory "g" (9) and in that the symlink
    "h" (10); elsewhere the database of C73_sample, with its unreadable entry, its truncated record and its loop. *)
Definition cln_links : list (Z * bytes * Z * bytes) := dmg_links ++ [(7, [102], 8, dmg_entry 8 [102]); (7, [103], 9, dmg_entry 9 [103]); (9, [104], 10, dmg_entry 10 [104])].
Definition cln_b : bdb := BDb {[NEXT_INO := le64 11]}
  (<[le64 7 := dmg_inode 0 S_IFDIR]> (<[le64 8 := dmg_inode 7 S_IFREG]> (<[le64 9 := dmg_inode 7 S_IFDIR]> (<[le64 10 := dmg_inode 9 S_IFLNK]> (b_inodes dmg)))))
  (dmg_tree cln_links).1 (dmg_tree cln_links).2 {[le64 7 := [0]]} {[le64 10 := [120]]}.
Definition cln_r : refs := {[8 := (1, false)]}.
Lemma says_here b x v i : real (b_inodes b) -> b_inodes b !! le64 x = Some v -> parse_inode 0 v = Done (Ok i) -> record_says b x (Ok i).
Proof. intros Hr Hv Hp. destruct (record_total b x Hr) as (rr & Hs & E). rewrite Hv, Hp in E. injection E as <-. exact Hs. Qed.
Definition type_is (b : bdb) (x t : Z) : bool := match b_inodes b !! le64 x with Some v => match parse_inode 0 v with Done (Ok i) => ftype (a_mode (i_attr i)) =? t | _ => false end | None => false end.
Lemma type_is_ok b x t : real (b_inodes b) -> has_type b x t <-> type_is b x t = true.
Proof.
  intros Hr. unfold type_is. destruct (record_total b x Hr) as (rr & Hs & E). destruct (b_inodes b !! le64 x) as [v|].
  - rewrite E. destruct rr as [i|e]; (split; [intros (j & Hj & Hf); pose proof (C73_one_reading _ _ _ _ Hj Hs) as Ej|]); try discriminate; [injection Ej as ->; apply Z.eqb_eq; exact Hf|intros Ef; exists i; split; [exact Hs|apply Z.eqb_eq; exact Ef]].
  - subst rr. split; [intros (j & Hj & Hf); pose proof (C73_one_reading _ _ _ _ Hj Hs) as Ej; discriminate Ej|discriminate].
Qed.
Lemma cln_real : real_db cln_b.
Proof. split_and!; apply realb_ok; vm_compute; reflexivity. Qed.
(** what is cut off: 7, 8, 9, 10 *)
Definition keysb (o : Z) (l : list Z) : bool := forallb (fun kv => negb (bool_decide (take 8 kv.1 = le64 o)) || existsb (fun x => bool_decide (kv.1 = le64 o ++ le64 x)) l) (map_to_list (b_treei cln_b)).
Lemma keysb_ok o l x : u64 x -> Forall u64 l -> keysb o l = true -> is_Some (b_treei cln_b !! (le64 o ++ le64 x)) -> x ∈ l.
Proof.
  intros Hx Hl H [v Hv]. unfold keysb in H. rewrite forallb_forall in H. apply elem_of_map_to_list, elem_of_list_In, H in Hv. cbn [fst] in Hv. apply orb_true_iff in Hv as [Hv|Hv].
  - exfalso. rewrite firstn_app, le64_length, Nat.sub_diag, firstn_O, app_nil_r, (take_ge (le64 o)) in Hv by (rewrite le64_length; lia). rewrite bool_decide_eq_true_2 in Hv by reflexivity. discriminate Hv.
  - apply existsb_exists in Hv as (y & Hy & E). apply bool_decide_eq_true_1 in E. rewrite Forall_forall in Hl. apply elem_of_list_In in Hy. rewrite (pair_inj _ _ _ _ Hx (Hl y Hy) E). exact Hy.
Qed.
Lemma cln_cut x : cut_off cln_b cln_r x -> x ∈ [7; 8; 9; 10].
Proof.
  assert (U : Forall u64 [7; 8; 9; 10]) by (repeat constructor; unfold u64; lia).
  induction 1 as [x Hx [v Hv]|o x Hx Hc IH Hr Hd Hin].
  - cbn [cln_b b_orphans] in Hv. apply lookup_singleton_Some in Hv as [E _]. apply le64_inj in E; [subst; left|unfold u64; lia|exact Hx].
  - assert (K : keysb o [7; 8; 9; 10] = true); [|exact (keysb_ok o _ x Hx U K Hin)]. clear -IH. repeat (apply elem_of_cons in IH as [->|IH]; [vm_compute; reflexivity|]). inversion IH.
Qed.
Definition soundb (o : Z) : bool := forallb (fun kv => negb (bool_decide (take 8 kv.1 = le64 o)) ||
  bool_decide (kv.1 = le64 o ++ le64 (child_of kv.2)) && match b_parent cln_b (child_of kv.2) with Done (Ok p) => p =? o | _ => false end && match parse_dirent kv.2 with Ok _ => true | _ => false end) (map_to_list (b_treei cln_b)).
Example C73_clean_sample_ok : in_order cln_b cln_r.
Proof.
  split; [constructor|].
  - intros k [v Hv]. cbn [cln_b b_orphans] in Hv. apply lookup_singleton_Some in Hv as [<- _]. exists 7. split; [unfold u64; lia|reflexivity].
  - intros x p Hx [v Hv] Hp. cbn [cln_b b_orphans] in Hv. apply lookup_singleton_Some in Hv as [E _]. apply le64_inj in E; [subst x|unfold u64; lia|exact Hx]. assert (Hq : b_parent cln_b 7 = Done (Ok 0)) by (vm_compute; reflexivity). rewrite Hq in Hp. injection Hp as <-. reflexivity.
  - intros H. apply cln_cut in H. repeat (apply elem_of_cons in H as [H|H]; [discriminate H|]). inversion H.
  - intros o [Hc _] _ k v Hk [rest Ek]. apply cln_cut in Hc. assert (S : soundb o = true) by (clear -Hc; repeat (apply elem_of_cons in Hc as [->|Hc]; [vm_compute; reflexivity|]); inversion Hc).
    unfold soundb in S. rewrite forallb_forall in S. pose proof Hk as Hk2. apply elem_of_map_to_list, elem_of_list_In, S in Hk. cbn [fst snd] in Hk. apply orb_true_iff in Hk as [Hk|Hk].
    + exfalso. rewrite Ek, firstn_app, le64_length, Nat.sub_diag, firstn_O, app_nil_r, (take_ge (le64 o)) in Hk by (rewrite le64_length; lia). rewrite bool_decide_eq_true_2 in Hk by reflexivity. discriminate Hk.
    + apply andb_true_iff in Hk as [Hk H3]. apply andb_true_iff in Hk as [H1 H2]. apply bool_decide_eq_true_1 in H1. destruct (proj1 (proj2 cln_real) _ _ Hk2) as [_ Bv]. split_and!; [apply (dirent_ok_iff v Bv); destruct (parse_dirent v); [eauto|discriminate H3]|exact H1|].
      destruct (b_parent cln_b (child_of v)) as [[p|e]| | |]; try discriminate H2. apply Z.eqb_eq in H2. rewrite H2. reflexivity.
Qed.
Example C73_clean_sample : exists b' r', b_clean_orphans (fun _ => 0) cln_b cln_r = Done (b', r') /\ cleaned cln_b cln_r b' r' /\
  goes cln_b cln_r 10 /\ has_type cln_b 10 S_IFLNK /\ ~ goes cln_b cln_r 8 /\ cut_off cln_b cln_r 8.
Proof.
  destruct (C73_clean (fun _ => 0) cln_b cln_r cln_real C73_clean_sample_ok) as (b' & r' & E & H). exists b', r'. split; [exact E|]. split; [exact H|].
  assert (T : forall x t, type_is cln_b x t = true -> has_type cln_b x t) by (intros x t; apply type_is_ok; apply cln_real).
  assert (C7 : cut_off cln_b cln_r 7) by (apply cut_orphan; [unfold u64; lia|exists [0]; apply lookup_singleton]).
  assert (I : forall o x, bool_decide (is_Some (b_treei cln_b !! (le64 o ++ le64 x))) = true -> is_Some (b_treei cln_b !! (le64 o ++ le64 x))) by (intros o x; apply bool_decide_eq_true_1).
  assert (C9 : cut_off cln_b cln_r 9) by (apply (cut_child _ _ 7); [unfold u64; lia|exact C7|vm_compute; discriminate|apply T; vm_compute; reflexivity|apply I; vm_compute; reflexivity]).
  split; [|split; [apply T; vm_compute; reflexivity|split]].
  - split; [|vm_compute; discriminate]. apply (cut_child _ _ 9); [unfold u64; lia|exact C9|vm_compute; discriminate|apply T; vm_compute; reflexivity|apply I; vm_compute; reflexivity].
  - intros [_ Hr]. vm_compute in Hr. apply Hr. reflexivity.
  - apply (cut_child _ _ 7); [unfold u64; lia|exact C7|vm_compute; discriminate|apply T; vm_compute; reflexivity|apply I; vm_compute; reflexivity].
Qed.
Print Assumptions C73_clean.
Print Assumptions C73_open_contained.
Print Assumptions C73_unlink_contained.
Print Assumptions C73_clean_iff.
(** Exactly when the mount comes up. *)
Theorem C73_open_iff : forall pad root b c, real_db b -> b_meta b !! NEXT_INO = Some c -> orphans_ok b ∅ ->
  (in_order b ∅ /\ exists b' r', b_open pad root b = Done (b', r') /\ cleaned b ∅ b' r' /\ b_orphans b' = ∅) \/
  (~ in_order b ∅ /\ (b_open pad root b = Crash \/ b_open pad root b = Diverge)).
Proof.
  intros pad root b c Hb Hm OK. destruct (C73_clean_iff pad b ∅ Hb OK) as [[HO _]|[HN E]]; [left; split; [exact HO|exact (C73_open_contained pad root b c Hb Hm HO)]|right].
  split; [exact HN|]. unfold b_open, b_init. rewrite Hm. unfold b_tx_clean at 1 3. cbn [bt_db bt_refs]. destruct E as [-> | ->]; auto.
Qed.
(** The sample without the record of 10, two levels below the orphan, and with an unreadable entry there. *)
Example C73_clean_sample_bad :
  b_clean_orphans (fun _ => 0) (bset_inodes (delete (le64 10) (b_inodes cln_b)) cln_b) cln_r = Diverge /\
  b_clean_orphans (fun _ => 0) (bset_treei (<[le64 9 ++ le64 10 := [7]]> (b_treei cln_b)) cln_b) cln_r = Crash /\
  b_clean_orphans (fun _ => 0) (bset_treei (<[le64 9 ++ le64 10 := [7]]> (b_treei cln_b)) cln_b) {[9 := (1, false)]} <> Crash.
Proof. split; [vm_compute; reflexivity|]. split; [vm_compute; reflexivity|]. vm_compute. intros H. discriminate H. Qed.
Print Assumptions C73_open_iff.
