(** On-disk records and key encodings:
    include/dragonstash/cache/inode.hpp, src/cache/inode.cpp,
    include/dragonstash/cache/direntry.hpp, src/cache/direntry.cpp. *)
From Coq Require Import Sorted.
From Verif Require Export Keys.

(** Error numbers (Linux x86-64) and file type bits. *)
Definition ENOENT : Z := 2.
Definition EIO : Z := 5.
Definition EBADF : Z := 9.
Definition EBUSY : Z := 16.
Definition EEXIST : Z := 17.
Definition ENOTDIR : Z := 20.
Definition EISDIR : Z := 21.
Definition EINVAL : Z := 22.
Definition ENAMETOOLONG : Z := 36.
Definition ENOSYS : Z := 38.
Definition ELOOP : Z := 40.
Definition EBADFD : Z := 77.
Definition ENOTCONN : Z := 107.
Definition EALREADY : Z := 114.
Definition ESTALE : Z := 116.
Definition ECANCELED : Z := 125.

Definition S_IFMT : Z := 61440.   (* 0170000 *)
Definition S_IFDIR : Z := 16384.  (* 0040000 *)
Definition S_IFREG : Z := 32768.  (* 0100000 *)
Definition S_IFLNK : Z := 40960.  (* 0120000 *)
Definition ftype (mode : Z) : Z := Z.land mode S_IFMT.

(** [Result<T>] (include/dragonstash/error.hpp): a value or an errno. *)
Inductive res (A : Type) : Type := Ok (a : A) | Err (e : Z).
Arguments Ok {A} a.
Arguments Err {A} e.

(** [CommonFileAttributes] and [InodeAttributes], inode.hpp:49-79.  A timespec
    is a pair (seconds, nanoseconds) of signed 64-bit numbers. *)
Record attrs := Attrs {
  a_size : Z; a_nblocks : Z; a_uid : Z; a_gid : Z;
  a_atime : Z * Z; a_mtime : Z * Z; a_ctime : Z * Z;
  a_mode : Z }.
(** [InodeV1], inode.hpp:127-133, without version and reserved fields. *)
Record inode := Inode { i_flags : Z; i_parent : Z; i_attr : attrs }.
(** [DirEntryV1] and the name that follows it, direntry.hpp:39-44. *)
Record dirent := Dirent { de_flags : Z; de_mode : Z; de_ino : Z; de_name : bytes }.

Global Instance attrs_eq : EqDecision attrs. Proof. solve_decision. Defined.
Global Instance inode_eq : EqDecision inode. Proof. solve_decision. Defined.
Global Instance dirent_eq : EqDecision dirent. Proof. solve_decision. Defined.

(** Machine ranges of the fields. *)
Definition s64 (z : Z) : Prop := - 2 ^ 63 <= z < 2 ^ 63.
Definition ts_ok (t : Z * Z) : Prop := s64 t.1 /\ s64 t.2.
Definition attrs_ok (a : attrs) : Prop :=
  u64 (a_size a) /\ u64 (a_nblocks a) /\ 0 <= a_uid a < 2 ^ 32 /\ 0 <= a_gid a < 2 ^ 32 /\
  ts_ok (a_atime a) /\ ts_ok (a_mtime a) /\ ts_ok (a_ctime a) /\ 0 <= a_mode a < 2 ^ 32.
Definition inode_ok (i : inode) : Prop :=
  0 <= i_flags i < 2 ^ 16 /\ u64 (i_parent i) /\ attrs_ok (i_attr i).
Definition dirent_ok (e : dirent) : Prop :=
  0 <= de_flags e < 2 ^ 16 /\ 0 <= de_mode e < 2 ^ 32 /\ u64 (de_ino e).

(** two's complement view of 8 bytes *)
Definition signed64 (z : Z) : Z := if 2 ^ 63 <=? z then z - 2 ^ 64 else z.

(** cut a buffer into fields of the given widths (struct member access) *)
Fixpoint cut (ns : list nat) (b : bytes) : list bytes :=
  match ns with
  | [] => []
  | n :: ns => take n b :: cut ns (drop n b)
  end.

(** Layout of InodeV1 on x86-64 (inode.hpp:49-58, 127-133): version, reserved,
    flags, reserved, parent, size, nblocks, uid, gid, 3 timespecs, mode, 4 bytes
    of tail padding; sizeof = 96. *)
Definition inode_layout : list nat :=
  [1; 1; 2; 4; 8; 8; 8; 4; 4; 8; 8; 8; 8; 8; 8; 4; 4]%nat.
Definition INODE_SIZE : nat := 96.
Definition inode_align : Z := 8.

(** [serialize(inode, buf)], inode.hpp:189-200: memcpy of the struct.  [r0], [r2] are
    the reserved fields (zero after mkinode, inode.hpp:180-187) and [pad] the tail
    padding, whose bytes the language leaves unspecified. *)
Definition ser_inode (r0 r2 pad : Z) (i : inode) : bytes :=
  let a := i_attr i in
  concat [ le 1 1; le 1 r0; le 2 (i_flags i); le 4 r2; le 8 (i_parent i);
           le 8 (a_size a); le 8 (a_nblocks a); le 4 (a_uid a); le 4 (a_gid a);
           le 8 (w64 (a_atime a).1); le 8 (w64 (a_atime a).2);
           le 8 (w64 (a_mtime a).1); le 8 (w64 (a_mtime a).2);
           le 8 (w64 (a_ctime a).1); le 8 (w64 (a_ctime a).2);
           le 4 (a_mode a); le 4 pad ].

(** [Inode::parse_inplace] + [extract], src/cache/inode.cpp:52-79 and inode.hpp:136-143.
    [addr] is the address of the buffer. *)
Definition parse_inode (addr : Z) (buf : bytes) : outcome (res inode) :=
  match buf with
  | [] => Done (Err EINVAL)
  | v :: _ =>
    if negb (v =? 1) then Done (Err EINVAL)
    else if (length buf <? INODE_SIZE)%nat then Done (Err EINVAL)
    else if negb (addr mod inode_align =? 0) then Crash
    else match map unle (cut inode_layout buf) with
         | [_; _; fl; _; par; sz; nb; uid; gid; a1; a2; m1; m2; c1; c2; mode; _] =>
           Done (Ok (Inode fl par
             (Attrs sz nb uid gid (signed64 a1, signed64 a2) (signed64 m1, signed64 m2)
                    (signed64 c1, signed64 c2) mode)))
         | _ => Crash
         end
  end.

(** Layout of DirEntryV1 (direntry.hpp:39-44); sizeof = 16. *)
Definition dirent_layout : list nat := [1; 1; 2; 4; 8]%nat.
Definition DIR_ENTRY_SIZE : nat := 16.

(** [Dragonstash::emplace(buf, name_size, ino)] + memcpy of the name,
    direntry.hpp:64-78 and cache.cpp:952-960: the fresh string is zero-filled. *)
Definition ser_dirent (r0 : Z) (e : dirent) : bytes :=
  concat [ le 1 1; le 1 r0; le 2 (de_flags e); le 4 (de_mode e); le 8 (de_ino e) ] ++ de_name e.

(** [DirEntry::parse], src/cache/direntry.cpp:31-62, direntry.hpp:48-56: a
    misaligned buffer is copied, so the address does not matter. *)
Definition parse_dirent (buf : bytes) : res dirent :=
  match buf with
  | [] => Err EINVAL
  | v :: _ =>
    if negb (v =? 1) then Err EINVAL
    else if (length buf <? DIR_ENTRY_SIZE)%nat then Err EINVAL
    else match map unle (cut dirent_layout buf) with
         | [_; _; fl; mode; ino] => Ok (Dirent fl mode ino (drop DIR_ENTRY_SIZE buf))
         | _ => Err EINVAL
         end
  end.

(** Keys. *)
(** inode-keyed tree: memcpy of parent and child, cache.cpp:440-443, 841-848, 972-980. *)
Definition enc_ii (k : Z * Z) : bytes := le64 k.1 ++ le64 k.2.
(** name-keyed tree: memcpy of parent, then the name, cache.cpp:908-912, 962-970. *)
Definition enc_in (k : Z * bytes) : bytes := le64 k.1 ++ k.2.

(** ** proofs *)
Lemma cut_concat bs rest : cut (map length bs) (concat bs ++ rest) = bs.
Proof.
  induction bs as [|b bs IH]; [reflexivity|]. cbn [map concat cut]. rewrite <- app_assoc.
  rewrite take_app. rewrite drop_app. f_equal. assumption.
Qed.
Lemma concat_cut ns b : concat (cut ns b) = take (sum_list ns) b.
Proof.
  revert b. induction ns as [|n ns IH]; intros b; [reflexivity|]. cbn [cut concat sum_list].
  rewrite IH. cbn. rewrite take_take_drop. reflexivity.
Qed.

Lemma signed64_w64 z : s64 z -> signed64 (w64 z) = z.
Proof.
  unfold s64, signed64, w64. intros Hz. destruct (Z.ltb_spec z 0) as [Hneg|Hpos].
  - replace (z mod 2 ^ 64) with (z + 2 ^ 64).
    + destruct (Z.leb_spec (2 ^ 63) (z + 2 ^ 64)); lia.
    + rewrite <- (Z.mod_small (z + 2 ^ 64) (2 ^ 64)) by lia.
      rewrite <- Z.add_mod_idemp_r by lia. rewrite Z.mod_same by lia. f_equal. lia.
  - rewrite Z.mod_small by lia. destruct (Z.leb_spec (2 ^ 63) z); lia.
Qed.
Lemma w64_u64 z : u64 (w64 z).
Proof. apply w64_range. Qed.

Lemma ser_inode_length r0 r2 pad i : length (ser_inode r0 r2 pad i) = INODE_SIZE.
Proof. unfold ser_inode. cbn [concat]. rewrite !app_length, !le_length. reflexivity. Qed.

Lemma parse_ser_inode addr r0 r2 pad i rest :
  inode_ok i -> addr mod 8 = 0 ->
  parse_inode addr (ser_inode r0 r2 pad i ++ rest) = Done (Ok i).
Proof.
  intros (Hfl & Hp & Hs & Hn & Hu & Hg & Ha & Hm & Hc & Hmo) Haddr.
  unfold parse_inode.
  destruct (ser_inode r0 r2 pad i ++ rest) as [|v b] eqn:E.
  { exfalso. apply (f_equal length) in E. rewrite app_length, ser_inode_length in E. discriminate. }
  assert (v = 1) as ->. { unfold ser_inode in E. cbn [concat le app] in E. injection E as <- _. reflexivity. }
  cbn [negb Z.eqb Pos.eqb]. rewrite <- E.
  replace (length (ser_inode r0 r2 pad i ++ rest) <? INODE_SIZE)%nat with false.
  2: { symmetry. apply Nat.ltb_ge. rewrite app_length, ser_inode_length. lia. }
  unfold inode_align. rewrite Haddr. cbn [negb Z.eqb].
  unfold ser_inode.
  match goal with |- context [concat ?l ++ rest] => pose proof (cut_concat l rest) as Hcut end.
  cbn [map] in Hcut. rewrite !le_length in Hcut. unfold inode_layout. rewrite Hcut. cbn [map].
  destruct i as [fl par [sz nb uid gid [a1 a2] [m1 m2] [c1 c2] mode]]. cbn in *.
  destruct Ha as [Ha1 Ha2], Hm as [Hm1 Hm2], Hc as [Hc1 Hc2]. cbn in *.
  do 3 f_equal.
  - apply (unle_le 2). cbn. lia.
  - apply (unle_le 8). assumption.
  - f_equal.
    + apply (unle_le 8). assumption.
    + apply (unle_le 8). assumption.
    + apply (unle_le 4). assumption.
    + apply (unle_le 4). assumption.
    + f_equal; (etransitivity; [apply (f_equal signed64), (unle_le 8), w64_u64|apply signed64_w64; assumption]).
    + f_equal; (etransitivity; [apply (f_equal signed64), (unle_le 8), w64_u64|apply signed64_w64; assumption]).
    + f_equal; (etransitivity; [apply (f_equal signed64), (unle_le 8), w64_u64|apply signed64_w64; assumption]).
    + apply (unle_le 4). assumption.
Qed.

Lemma ser_dirent_length r0 e : length (ser_dirent r0 e) = (DIR_ENTRY_SIZE + length (de_name e))%nat.
Proof. unfold ser_dirent. cbn [concat]. rewrite !app_length, !le_length. reflexivity. Qed.

Lemma parse_ser_dirent r0 e : dirent_ok e -> parse_dirent (ser_dirent r0 e) = Ok e.
Proof.
  intros (Hf & Hm & Hi). unfold parse_dirent.
  destruct (ser_dirent r0 e) as [|v b] eqn:E.
  { exfalso. apply (f_equal length) in E. rewrite ser_dirent_length in E. discriminate. }
  assert (v = 1) as ->. { unfold ser_dirent in E. cbn [concat le app] in E. injection E as <- _. reflexivity. }
  cbn [negb Z.eqb Pos.eqb]. rewrite <- E.
  replace (length (ser_dirent r0 e) <? DIR_ENTRY_SIZE)%nat with false.
  2: { symmetry. apply Nat.ltb_ge. rewrite ser_dirent_length. lia. }
  unfold ser_dirent.
  match goal with |- context [concat ?l ++ de_name e] =>
    pose proof (cut_concat l (de_name e)) as Hcut;
    assert (Hdrop : drop DIR_ENTRY_SIZE (concat l ++ de_name e) = de_name e) end.
  { apply drop_app_alt. cbn [concat]. rewrite !app_length, !le_length. reflexivity. }
  cbn [map] in Hcut. rewrite !le_length in Hcut. unfold dirent_layout. rewrite Hcut, Hdrop. cbn [map].
  destruct e as [fl mode ino name]. cbn in *. do 2 f_equal.
  - apply (unle_le 2). cbn. lia.
  - apply (unle_le 4). assumption.
  - apply (unle_le 8). assumption.
Qed.

(** keys *)
Lemma app_inj_len {A} (a b c d : list A) : length a = length c -> a ++ b = c ++ d -> a = c /\ b = d.
Proof.
  revert c. induction a as [|x a IH]; intros [|y c]; cbn; try discriminate; [auto|].
  intros H E. injection E as -> E. injection H as H. destruct (IH c H E) as [-> ->]. auto.
Qed.
Lemma enc_ii_inj p c p' c' : u64 p -> u64 c -> u64 p' -> u64 c' ->
  enc_ii (p, c) = enc_ii (p', c') -> p = p' /\ c = c'.
Proof.
  intros ???? E. apply app_inj_len in E as [E1 E2]; [|rewrite !le64_length; reflexivity].
  split; apply le64_inj; assumption.
Qed.
Lemma enc_in_inj p n p' n' : u64 p -> u64 p' -> enc_in (p, n) = enc_in (p', n') -> p = p' /\ n = n'.
Proof.
  intros ?? E. apply app_inj_len in E as [E1 E2]; [|rewrite !le64_length; reflexivity].
  split; [apply le64_inj|]; assumption.
Qed.

(** A key of another directory at or after [p]'s prefix comes after every key of [p]. *)
Lemma scan_after p q x y : u64 p -> u64 q -> q <> p ->
  ble (le64 p) (le64 q ++ x) -> blt (le64 p ++ y) (le64 q ++ x).
Proof.
  intros Hp Hq Hne. unfold ble, blt. rewrite bcmp_app_r, bcmp_app by (rewrite !le64_length; reflexivity).
  destruct (bcmp (le64 p) (le64 q)) eqn:E; [|auto|congruence].
  apply bcmp_eq in E. apply le64_inj in E; auto. congruence.
Qed.
Lemma scan_before p y : ble (le64 p) (le64 p ++ y).
Proof. unfold ble. rewrite bcmp_app_r by reflexivity. rewrite bcmp_refl. destruct y; discriminate. Qed.

(** ** prefix scans: in key order from lower_bound(p) on, the entries of [p] come
    first, without interruption. *)
Lemma scan_split_gen {K V} (enc : K -> bytes) (par : K -> Z) (p : Z) (L : list (K * V)) :
  StronglySorted (kle enc) L ->
  (forall x y, x ∈ L -> y ∈ L -> par x.1 <> p -> par y.1 = p -> ~ kle enc x y) ->
  L = filter (fun e => par e.1 = p) L ++ filter (fun e => par e.1 <> p) L.
Proof.
  induction 1 as [|x L Hs IH Hall]; intros Hx; [reflexivity|].
  assert (IH' : L = filter (fun e => par e.1 = p) L ++ filter (fun e => par e.1 <> p) L).
  { apply IH. intros; apply Hx; auto; right; assumption. }
  rewrite !filter_cons. destruct (decide (par x.1 = p)) as [Hp|Hp].
  - destruct (decide (par x.1 <> p)); [contradiction|]. cbn. f_equal. assumption.
  - destruct (decide (par x.1 <> p)); [|contradiction].
    assert (Hnil : filter (fun e => par e.1 = p) L = []).
    { destruct (filter _ L) as [|y l] eqn:E; [reflexivity|]. exfalso.
      assert (Hy : y ∈ filter (fun e => par e.1 = p) L) by (rewrite E; left).
      apply elem_of_list_filter in Hy as [Hy1 Hy2].
      apply (Hx x y); auto; [left|right; assumption|]. rewrite Forall_forall in Hall. apply Hall; assumption. }
    rewrite Hnil in IH' |- *. cbn in *. f_equal. assumption.
Qed.

Section scans.
  Context {V : Type}.
  Lemma scan_split_in (m : gmap (Z * bytes) V) p : u64 p ->
    (forall k v, m !! k = Some v -> u64 k.1) ->
    from_key enc_in m (le64 p) =
      filter (fun e => e.1.1 = p) (from_key enc_in m (le64 p)) ++
      filter (fun e => e.1.1 <> p) (from_key enc_in m (le64 p)).
  Proof.
    intros Hp Hm. apply (scan_split_gen enc_in fst p); [apply from_sorted|].
    intros [[q x] v] [[q' y] v'] Hx Hy Hq Hq'. cbn in *. subst q'.
    apply elem_of_from in Hx as [Hx1 Hx2]. unfold kle. cbn. rewrite not_ble.
    apply scan_after; auto. apply (Hm _ _ Hx1).
  Qed.
  Lemma scan_split_ii (m : gmap (Z * Z) V) p : u64 p ->
    (forall k v, m !! k = Some v -> u64 k.1) ->
    from_key enc_ii m (le64 p) =
      filter (fun e => e.1.1 = p) (from_key enc_ii m (le64 p)) ++
      filter (fun e => e.1.1 <> p) (from_key enc_ii m (le64 p)).
  Proof.
    intros Hp Hm. apply (scan_split_gen enc_ii fst p); [apply from_sorted|].
    intros [[q x] v] [[q' y] v'] Hx Hy Hq Hq'. cbn in *. subst q'.
    apply elem_of_from in Hx as [Hx1 Hx2]. unfold kle. cbn. rewrite not_ble.
    apply scan_after; auto. apply (Hm _ _ Hx1).
  Qed.
End scans.

(** converse direction of the codecs *)
Lemma w64_signed64 z : u64 z -> w64 (signed64 z) = z.
Proof.
  unfold u64, signed64, w64. intros Hz. destruct (Z.leb_spec (2 ^ 63) z).
  - replace (z - 2 ^ 64) with (z + (-1) * 2 ^ 64) by lia. rewrite Z.mod_add by lia. apply Z.mod_small; lia.
  - apply Z.mod_small; lia.
Qed.
Lemma signed64_s64 z : u64 z -> s64 (signed64 z).
Proof. unfold u64, s64, signed64. intros. destruct (Z.leb_spec (2 ^ 63) z); lia. Qed.
Lemma unle_range b : Forall (fun x => 0 <= x < 256) b -> 0 <= unle b < 256 ^ Z.of_nat (length b).
Proof.
  induction 1 as [|x b Hx Hb IH]; [cbn; lia|]. cbn [unle length].
  rewrite Nat2Z.inj_succ, Z.pow_succ_r by lia. lia.
Qed.
Lemma take_bytes n b : Forall (fun x => 0 <= x < 256) b -> Forall (fun x => 0 <= x < 256) (take n b).
Proof. apply Forall_take. Qed.
Lemma drop_bytes n b : Forall (fun x => 0 <= x < 256) b -> Forall (fun x => 0 <= x < 256) (drop n b).
Proof. apply Forall_drop. Qed.

Lemma cut_spec ns b : (sum_list ns <= length b)%nat -> Forall (fun x => 0 <= x < 256) b ->
  exists ps, cut ns b = ps /\ map length ps = ns /\ concat ps = take (sum_list ns) b /\
             Forall (fun p => le (length p) (unle p) = p /\ 0 <= unle p < 256 ^ Z.of_nat (length p)) ps.
Proof.
  intros Hl Hb. exists (cut ns b). split; [reflexivity|]. split; [|split; [apply concat_cut|]].
  - clear Hb. revert b Hl. induction ns as [|n ns IH]; intros b Hl; [reflexivity|]. cbn in *. f_equal.
    + apply firstn_length_le. lia.
    + apply IH. rewrite drop_length. lia.
  - clear Hl. revert b Hb. induction ns as [|n ns IH]; intros b Hb; cbn; constructor.
    + split; [apply le_unle|apply unle_range]; apply take_bytes; assumption.
    + apply IH, drop_bytes, Hb.
Qed.

Lemma ser_parse_inode addr buf i : Forall (fun x => 0 <= x < 256) buf ->
  parse_inode addr buf = Done (Ok i) ->
  inode_ok i /\ exists r0 r2 pad, ser_inode r0 r2 pad i = take INODE_SIZE buf.
Proof.
  intros Hb. unfold parse_inode. destruct buf as [|v b]; [discriminate|].
  destruct (negb (v =? 1)) eqn:Hv; [discriminate|].
  destruct (Nat.ltb_spec (length (v :: b)) INODE_SIZE) as [|Hlen]; [discriminate|].
  destruct (negb (addr mod inode_align =? 0)); [discriminate|].
  apply negb_false_iff, Z.eqb_eq in Hv. subst v.
  destruct (cut_spec inode_layout (1 :: b) Hlen Hb) as (ps & -> & Hlens & Hcat & Hps).
  change (sum_list inode_layout) with INODE_SIZE in Hcat.
  unfold inode_layout in Hlens.
  destruct ps as [|p0 [|p1 [|p2 [|p3 [|p4 [|p5 [|p6 [|p7 [|p8 [|p9 [|p10 [|p11 [|p12 [|p13 [|p14 [|p15 [|p16 [|]]]]]]]]]]]]]]]]]]; try discriminate.
  cbn [map] in Hlens.
  injection Hlens as L1 L2 L3 L4 L5 L6 L7 L8 L9 L10 L11 L12 L13 L14 L15 L16 L17.
  repeat match goal with H : Forall _ (_ :: _) |- _ =>
    let A := fresh "A" in let B := fresh "B" in let C := fresh "C" in
    apply Forall_cons in H as [[A B] C] end.
  repeat match goal with H : length ?l = _, A : le (length ?l) _ = _, B : 0 <= _ < 256 ^ Z.of_nat (length ?l) |- _ =>
    rewrite H in A, B; clear H end.
  cbn [map]. intros E. injection E as <-. split.
  - unfold inode_ok, attrs_ok, ts_ok. cbn [i_flags i_parent i_attr a_size a_nblocks a_uid a_gid a_atime a_mtime a_ctime a_mode fst snd].
    split_and!; try assumption; try (apply signed64_s64; assumption).
    all: match goal with |- 0 <= ?x => idtac | |- ?x < _ => idtac end;
      repeat match goal with B : 0 <= _ < 256 ^ Z.of_nat _ |- _ => cbn in B end; try lia.
  - exists (unle p1), (unle p3), (unle p16). rewrite <- Hcat. unfold ser_inode.
    cbn [i_flags i_parent i_attr a_size a_nblocks a_uid a_gid a_atime a_mtime a_ctime a_mode fst snd].
    rewrite !w64_signed64 by assumption.
    f_equal. f_equal; [|repeat match goal with A : le _ _ = _ |- _ => rewrite A; clear A end; reflexivity].
    destruct p0 as [|v p0]; [discriminate|]. cbn in Hcat. injection Hcat as -> _.
    destruct p0 as [|? p0]; [reflexivity|]. apply (f_equal length) in A. rewrite le_length in A. discriminate.
Qed.

Lemma ser_parse_dirent buf e : Forall (fun x => 0 <= x < 256) buf ->
  parse_dirent buf = Ok e ->
  dirent_ok e /\ exists r0, ser_dirent r0 e = buf.
Proof.
  intros Hb. unfold parse_dirent. destruct buf as [|v b]; [discriminate|].
  destruct (negb (v =? 1)) eqn:Hv; [discriminate|].
  destruct (Nat.ltb_spec (length (v :: b)) DIR_ENTRY_SIZE) as [|Hlen]; [discriminate|].
  apply negb_false_iff, Z.eqb_eq in Hv. subst v.
  destruct (cut_spec dirent_layout (1 :: b) Hlen Hb) as (ps & -> & Hlens & Hcat & Hps).
  change (sum_list dirent_layout) with DIR_ENTRY_SIZE in Hcat.
  unfold dirent_layout in Hlens.
  destruct ps as [|p0 [|p1 [|p2 [|p3 [|p4 [|]]]]]]; try discriminate.
  cbn [map] in Hlens.
  injection Hlens as L1 L2 L3 L4 L5.
  repeat match goal with H : Forall _ (_ :: _) |- _ =>
    let A := fresh "A" in let B := fresh "B" in let C := fresh "C" in
    apply Forall_cons in H as [[A B] C] end.
  repeat match goal with H : length ?l = _, A : le (length ?l) _ = _, B : 0 <= _ < 256 ^ Z.of_nat (length ?l) |- _ =>
    rewrite H in A, B; clear H end.
  cbn [map]. intros E. injection E as <-. split.
  - unfold dirent_ok. cbn [de_flags de_mode de_ino]. split_and!; try assumption;
      repeat match goal with B : 0 <= _ < 256 ^ Z.of_nat _ |- _ => cbn in B end; try lia.
  - exists (unle p1). transitivity (take DIR_ENTRY_SIZE (1 :: b) ++ drop DIR_ENTRY_SIZE (1 :: b)); [|apply take_drop]. rewrite <- Hcat. unfold ser_dirent.
    cbn [de_flags de_mode de_ino de_name]. f_equal.
    f_equal. f_equal; [|repeat match goal with A : le _ _ = _ |- _ => rewrite A; clear A end; reflexivity].
    destruct p0 as [|v p0]; [discriminate|]. cbn in Hcat. injection Hcat as -> _.
    destruct p0 as [|? p0]; [reflexivity|]. apply (f_equal length) in A. rewrite le_length in A. discriminate.
Qed.
