(** Property theorems C30-C32 (record codecs and keys). *)
From Coq Require Import Sorted.
From Verif Require Import Codec.

Definition is_bytes (b : bytes) : Prop := Forall (fun x => 0 <= x < 256) b.

(** what the C++ accepts as an inode record / directory entry record *)
Definition malformed (size : nat) (buf : bytes) : Prop :=
  buf = [] \/ (exists v b, buf = v :: b /\ v <> 1) \/ (length buf < size)%nat.

(** ** C30: inode records *)
(** Any record that fits its machine fields is read back unchanged from its stored
    bytes, whatever the reserved bytes and whatever follows it in the buffer. *)
Theorem C30_inode_roundtrip : forall addr r0 r2 pad i rest,
  inode_ok i -> addr mod 8 = 0 ->
  length (ser_inode r0 r2 pad i) = 96%nat /\
  parse_inode addr (ser_inode r0 r2 pad i ++ rest) = Done (Ok i).
Proof. intros. split; [apply ser_inode_length|apply parse_ser_inode; assumption]. Qed.
Print Assumptions C30_inode_roundtrip.

(** Exact behaviour on every byte string at every address. *)
Theorem C30_inode_parse_exact : forall addr buf, is_bytes buf ->
  (malformed 96 buf /\ parse_inode addr buf = Done (Err EINVAL)) \/
  (~ malformed 96 buf /\ addr mod 8 <> 0 /\ parse_inode addr buf = Crash) \/
  (~ malformed 96 buf /\ addr mod 8 = 0 /\ exists i r0 r2 pad,
     parse_inode addr buf = Done (Ok i) /\ inode_ok i /\ ser_inode r0 r2 pad i = take 96 buf).
Proof.
  intros addr buf Hb. unfold malformed.
  destruct buf as [|v b]. { left. split; [auto|reflexivity]. }
  destruct (Z.eq_dec v 1) as [->|Hv].
  2: { left. split; [eauto 10|]. cbn. destruct (Z.eqb_spec v 1); [contradiction|reflexivity]. }
  destruct (le_lt_dec 96 (length (1 :: b))) as [Hl|Hl].
  2: { left. split; [auto|]. unfold parse_inode. cbn [negb Z.eqb Pos.eqb].
       destruct (Nat.ltb_spec (length (1 :: b)) INODE_SIZE); [reflexivity|unfold INODE_SIZE in *; lia]. }
  assert (Hnm : ~ malformed 96 (1 :: b)).
  { intros [H|[(v & b' & H & Hx)|H]]; [discriminate|injection H as <- _; congruence|lia]. }
  right. destruct (Z.eq_dec (addr mod 8) 0) as [Ha|Ha].
  - right. split; [assumption|]. split; [assumption|].
    assert (exists i, parse_inode addr (1 :: b) = Done (Ok i)) as [i Hi].
    { unfold parse_inode. cbn [negb Z.eqb Pos.eqb].
      destruct (Nat.ltb_spec (length (1 :: b)) INODE_SIZE) as [|_]; [unfold INODE_SIZE in *; lia|].
      unfold inode_align. rewrite Ha. cbn [negb Z.eqb cut inode_layout map]. eexists. reflexivity. }
    destruct (ser_parse_inode _ _ _ Hb Hi) as (Hok & r0 & r2 & pad & E). exists i, r0, r2, pad. auto.
  - left. split; [assumption|]. split; [assumption|].
    unfold parse_inode. cbn [negb Z.eqb Pos.eqb].
    destruct (Nat.ltb_spec (length (1 :: b)) INODE_SIZE) as [|_]; [unfold INODE_SIZE in *; lia|].
    unfold inode_align. destruct (Z.eqb_spec (addr mod 8) 0); [contradiction|reflexivity].
Qed.
Print Assumptions C30_inode_parse_exact.

(** a concrete record *)
Example C30_sample : inode_ok (Inode 1 7 (Attrs 4096 0 1000 1000 (-5, 3) (1, 2) (3, 4) 33188)).
Proof. unfold inode_ok, attrs_ok, ts_ok, s64, u64; cbn; lia. Qed.

(** ** C31: directory entries *)
Theorem C31_direntry_roundtrip : forall r0 e, dirent_ok e ->
  length (ser_dirent r0 e) = (16 + length (de_name e))%nat /\
  parse_dirent (ser_dirent r0 e) = Ok e.
Proof. intros. split; [apply ser_dirent_length|apply parse_ser_dirent; assumption]. Qed.
Print Assumptions C31_direntry_roundtrip.

Theorem C31_direntry_parse_exact : forall buf, is_bytes buf ->
  (malformed 16 buf /\ parse_dirent buf = Err EINVAL) \/
  (~ malformed 16 buf /\ exists e r0,
     parse_dirent buf = Ok e /\ dirent_ok e /\ de_name e = drop 16 buf /\ ser_dirent r0 e = buf).
Proof.
  intros buf Hb. unfold malformed.
  destruct buf as [|v b]. { left. split; [auto|reflexivity]. }
  destruct (Z.eq_dec v 1) as [->|Hv].
  2: { left. split; [eauto 10|]. cbn. destruct (Z.eqb_spec v 1); [contradiction|reflexivity]. }
  destruct (le_lt_dec 16 (length (1 :: b))) as [Hl|Hl].
  2: { left. split; [auto|]. unfold parse_dirent. cbn [negb Z.eqb Pos.eqb].
       destruct (Nat.ltb_spec (length (1 :: b)) DIR_ENTRY_SIZE); [reflexivity|unfold DIR_ENTRY_SIZE in *; lia]. }
  right. split.
  { intros [H|[(v & b' & H & Hx)|H]]; [discriminate|injection H as <- _; congruence|lia]. }
  assert (exists e, parse_dirent (1 :: b) = Ok e /\ de_name e = drop 16 (1 :: b)) as (e & He & Hn).
  { unfold parse_dirent. cbn [negb Z.eqb Pos.eqb].
    destruct (Nat.ltb_spec (length (1 :: b)) DIR_ENTRY_SIZE) as [|_]; [unfold DIR_ENTRY_SIZE in *; lia|].
    cbn [map cut dirent_layout]. eexists. split; reflexivity. }
  destruct (ser_parse_dirent _ _ Hb He) as (Hok & r0 & E). exists e, r0. auto.
Qed.
Print Assumptions C31_direntry_parse_exact.

Example C31_sample : dirent_ok (Dirent 0 0 12 [102; 111; 111]).
Proof. unfold dirent_ok, u64; cbn; lia. Qed.

(** ** C32: keys *)
(** Different (parent, child) pairs and different (parent, name) pairs have different keys. *)
Theorem C32_keys_injective :
  (forall p c p' c', u64 p -> u64 c -> u64 p' -> u64 c' ->
     le64 p ++ le64 c = le64 p' ++ le64 c' -> (p, c) = (p', c')) /\
  (forall p n p' n', u64 p -> u64 p' -> le64 p ++ n = le64 p' ++ n' -> (p, n) = (p', n')).
Proof.
  split.
  - intros p c p' c' ???? E. destruct (enc_ii_inj p c p' c') as [-> ->]; auto.
  - intros p n p' n' ?? E. destruct (enc_in_inj p n p' n') as [-> ->]; auto.
Qed.
Print Assumptions C32_keys_injective.

(** Scanning either table in memcmp key order from the 8-byte key of directory [p]:
    the visited list starts with exactly the entries of [p], all of them, in key order,
    and every entry after them belongs to another directory. *)
Definition scan_property {K V} `{Countable K} (enc : K -> bytes) (par : K -> Z) : Prop :=
  forall (m : gmap K V) p, u64 p -> (forall k v, m !! k = Some v -> u64 (par k)) ->
  exists mine others, from_key enc m (le64 p) = mine ++ others /\
    (forall k v, (k, v) ∈ mine <-> m !! k = Some v /\ par k = p) /\
    (forall k v, (k, v) ∈ others -> par k <> p) /\
    NoDup (map fst mine) /\
    StronglySorted (fun a b => bcmp (enc a) (enc b) <> Gt) (map fst mine).
Lemma scan_property_gen {K V} `{Countable K} (enc : K -> bytes) (par : K -> Z)
  (Hpre : forall k, exists y, enc k = le64 (par k) ++ y)
  (Hsplit : forall (m : gmap K V) p, u64 p -> (forall k v, m !! k = Some v -> u64 (par k)) ->
    from_key enc m (le64 p) = filter (fun e => par e.1 = p) (from_key enc m (le64 p)) ++
      filter (fun e => par e.1 <> p) (from_key enc m (le64 p))) :
  scan_property (V:=V) enc par.
Proof.
  intros m p Hp Hm. eexists _, _. split; [apply Hsplit; assumption|]. split_and!.
  - intros k v. rewrite elem_of_list_filter, elem_of_from. cbn. split; [tauto|].
    intros [Hk <-]. split; [reflexivity|]. split; [assumption|].
    destruct (Hpre k) as [y ->]. apply scan_before.
  - intros k v. rewrite elem_of_list_filter. cbn. tauto.
  - assert (Hnd : NoDup (map fst (from_key enc m (le64 p)))).
    { unfold from_key. pose proof (NoDup_entries enc m) as Hn. unfold fmap in Hn. cbn in Hn. revert Hn.
      generalize (entries enc m). induction l as [|x l IH]; [cbn; auto|]. rewrite filter_cons.
      intros Hn. inversion Hn; subst. destruct (decide _); cbn; [|auto]. constructor; [|auto].
      intros Hin. apply elem_of_list_fmap in Hin as (z & Hz & Hin). apply elem_of_list_filter in Hin as [_ Hin].
      match goal with H : _ ∉ _ |- _ => apply H end. apply elem_of_list_fmap. eauto. }
    revert Hnd. generalize (from_key enc m (le64 p)).
    induction l as [|x l IH]; [cbn; auto|]. rewrite filter_cons.
      intros Hn. inversion Hn; subst. destruct (decide _); cbn; [|auto]. constructor; [|auto].
      intros Hin. apply elem_of_list_fmap in Hin as (z & Hz & Hin). apply elem_of_list_filter in Hin as [_ Hin].
      match goal with H : _ ∉ _ |- _ => apply H end. apply elem_of_list_fmap. eauto.
  - pose proof (filter_sorted enc (fun e => par e.1 = p) _ (from_sorted enc m (le64 p))) as Hs.
    induction Hs as [|x l Hs IH Hall]; cbn; constructor; [assumption|].
    apply Forall_map. assumption.
Qed.
Theorem C32_scan_name_table : forall V, scan_property (V:=V) (fun k : Z * bytes => le64 k.1 ++ k.2) fst.
Proof.
  intros V. apply scan_property_gen; [intros k; eexists; reflexivity|].
  intros. apply (scan_split_in m p); assumption.
Qed.
Print Assumptions C32_scan_name_table.
Theorem C32_scan_inode_table : forall V, scan_property (V:=V) (fun k : Z * Z => le64 k.1 ++ le64 k.2) fst.
Proof.
  intros V. apply scan_property_gen; [intros k; eexists; reflexivity|].
  intros. apply (scan_split_ii m p); assumption.
Qed.
Print Assumptions C32_scan_inode_table.

(** directories 1 and 256 with interleaving little-endian keys; 256 sorts before 1 *)
Example C32_sample :
  map (fun e => e.1) (from_key enc_in (list_to_map [((256, [1]), 0); ((1, [9]), 1); ((1, []), 2); ((3, [0]), 3)]
     : gmap (Z * bytes) Z) (le64 1)) = [(1, []); (1, [9]); (3, [0])].
Proof. vm_compute. reflexivity. Qed.
