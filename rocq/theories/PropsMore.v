(** More about C02 (the count of absent blocks) and C46 (entries added without an offset). *)
From Verif Require Import Prelude Blocklist BlocklistSpec BlocklistFinal PropsBlocklist.

Lemma filter_compl {A} (P : A -> Prop) `{forall x, Decision (P x)} (l : list A) :
  (length (filter P l) + length (filter (fun x => ~ P x) l) = length l)%nat.
Proof.
  induction l as [|x l IH]; [reflexivity|]. rewrite !filter_cons. destruct (decide (P x)) as [Hx|Hx]; destruct (decide (~ P x)); try contradiction; cbn [length]; lia.
Qed.
Lemma absent_count (f : Z -> Z) (N : Z) : 0 <= N -> nblocks f ABSENT N + Z.of_nat (length (filter (fun x => f x <> ABSENT) (seqZ 0 N))) = N.
Proof.
  intros HN. unfold nblocks. pose proof (filter_compl (fun x => f x = ABSENT) (seqZ 0 N)) as Hc. rewrite seqZ_length in Hc. lia.
Qed.
(** blocks(ABSENT) is documented as the number of absent blocks.  It is a constant: after a safe
    history it is right exactly if one block is present. *)
Theorem C02_absent : forall h b, Forall valid_req h -> all_calls safe_req (fun _ => ABSENT) h -> run bl_fresh h = Done b ->
  (blocks b ABSENT = nblocks (expected h) ABSENT (2 ^ 64) <-> present_blocks b = 1).
Proof.
  intros h b Hv Hs Hr. destruct (C02_counters_partial h b Hv Hs Hr) as [_ Hp]. rewrite Hp.
  pose proof (absent_count (expected h) (2 ^ 64) ltac:(lia)) as Hc.
  assert (Hb : blocks b ABSENT = 2 ^ 64 - 1) by reflexivity. rewrite Hb. revert Hc.
  generalize (nblocks (expected h) ABSENT (2 ^ 64)) (Z.of_nat (length (filter (fun x => expected h x <> ABSENT) (seqZ 0 (2 ^ 64))))). intros u v Hc. lia.
Qed.
Print Assumptions C02_absent.
Theorem C02_absent_refuted : exists b, run bl_fresh [] = Done b /\ blocks b ABSENT <> nblocks (expected []) ABSENT (2 ^ 64).
Proof.
  pose proof (C02_absent [] bl_fresh (Forall_nil_2 _) I eq_refl) as [H _].
  exists bl_fresh. split; [reflexivity|]. intros E. specialize (H E). clear E.
  assert (Hp : present_blocks bl_fresh = 0) by (vm_compute; reflexivity). rewrite Hp in H. discriminate.
Qed.
Example C02_absent_sample : exists b, Forall valid_req [mkReq 5 1 0] /\ all_calls safe_req (fun _ => ABSENT) [mkReq 5 1 0] /\ run bl_fresh [mkReq 5 1 0] = Done b /\ present_blocks b = 1.
Proof.
  eexists. split; [repeat constructor; unfold valid_req, ABSENT; cbn; lia|]. split.
  - cbn [all_calls]. split; [|exact I]. intros s c _. right. left. reflexivity.
  - split; [vm_compute; reflexivity|]. vm_compute. reflexivity.
Qed.

(** ** C46: the overloads without an offset *)
From Verif Require Import PropsFuse Fuse.
Fixpoint adds_auto (buf : bytes) (l : list bent) : outcome bytes :=
  match l with [] => Done buf | e :: l => dlet buf := dirbuf_add_auto buf (be_name e) (be_ino e) (be_attr e) in adds_auto buf l end.
Fixpoint adds_plus_auto (buf : bytes) (l : list bent) : outcome bytes :=
  match l with [] => Done buf | e :: l => dlet buf := plusbuf_add_auto buf (be_name e) (be_ino e) (be_attr e) in adds_plus_auto buf l end.
(** the offsets they write: where the record ends in the buffer *)
Fixpoint with_ends (size : bytes -> Z) (p : Z) (l : list bent) : list bent :=
  match l with [] => [] | e :: l => let q := p + size (be_name e) in BEnt (be_name e) (be_ino e) (be_attr e) q :: with_ends size q l end.
Lemma dirbuf_auto buf e : ~ In 0 (be_name e) -> dirbuf_add_auto buf (be_name e) (be_ino e) (be_attr e) =
  dirbuf_add buf (be_name e) (be_ino e) (be_attr e) (Z.of_nat (length buf) + dirent_size (be_name e)).
Proof.
  intros Hn. unfold dirbuf_add_auto, dirbuf_add. rewrite cstr_id by assumption. unfold dirbuf_prepare. cbn [add_direntry fst].
  assert (E : Z.of_nat (length (resize buf (length buf + Z.to_nat (dirent_size (be_name e))))) = Z.of_nat (length buf) + dirent_size (be_name e)).
  { rewrite resize_grow, app_length, repeat_length. pose proof (align8_ge (24 + Z.of_nat (length (be_name e)))). unfold dirent_size. lia. }
  rewrite E. reflexivity.
Qed.
Lemma plusbuf_auto buf e : ~ In 0 (be_name e) -> plusbuf_add_auto buf (be_name e) (be_ino e) (be_attr e) =
  plusbuf_add buf (be_name e) (be_ino e) (be_attr e) (Z.of_nat (length buf) + direntplus_size (be_name e)).
Proof.
  intros Hn. unfold plusbuf_add_auto, plusbuf_add. rewrite cstr_id by assumption. unfold plusbuf_prepare. cbn [add_direntry_plus fst].
  assert (E : Z.of_nat (length (resize buf (length buf + Z.to_nat (direntplus_size (be_name e))))) = Z.of_nat (length buf) + direntplus_size (be_name e)).
  { rewrite resize_grow, app_length, repeat_length. pose proof (align8_ge (152 + Z.of_nat (length (be_name e)))). unfold direntplus_size. lia. }
  rewrite E. reflexivity.
Qed.
Lemma adds_auto_eq l : Forall (fun e => ~ In 0 (be_name e)) l -> forall buf, adds_auto buf l = adds buf (with_ends dirent_size (Z.of_nat (length buf)) l).
Proof.
  induction 1 as [|e l He _ IH]; intros buf; [reflexivity|]. cbn [adds_auto with_ends adds be_name be_ino be_attr be_off].
  rewrite (dirbuf_auto buf e He). set (e' := BEnt (be_name e) (be_ino e) (be_attr e) (Z.of_nat (length buf) + dirent_size (be_name e))).
  change (dirbuf_add buf (be_name e) (be_ino e) (be_attr e) (Z.of_nat (length buf) + dirent_size (be_name e))) with (dirbuf_add buf (be_name e') (be_ino e') (be_attr e') (be_off e')).
  rewrite (dirbuf_add_spec buf e' He). cbn [obind]. rewrite IH. f_equal. f_equal. rewrite app_length, Nat2Z.inj_add, rec_dirent_length. reflexivity.
Qed.
Lemma adds_plus_auto_eq l : Forall (fun e => ~ In 0 (be_name e)) l -> forall buf, adds_plus_auto buf l = adds_plus buf (with_ends direntplus_size (Z.of_nat (length buf)) l).
Proof.
  induction 1 as [|e l He _ IH]; intros buf; [reflexivity|]. cbn [adds_plus_auto with_ends adds_plus be_name be_ino be_attr be_off].
  rewrite (plusbuf_auto buf e He). set (e' := BEnt (be_name e) (be_ino e) (be_attr e) (Z.of_nat (length buf) + direntplus_size (be_name e))).
  change (plusbuf_add buf (be_name e) (be_ino e) (be_attr e) (Z.of_nat (length buf) + direntplus_size (be_name e))) with (plusbuf_add buf (be_name e') (be_ino e') (be_attr e') (be_off e')).
  rewrite (plusbuf_add_spec buf e' He). cbn [obind]. rewrite IH. f_equal. f_equal. rewrite app_length, Nat2Z.inj_add, rec_plus_length. reflexivity.
Qed.
Lemma with_ends_ok size l : (forall n, 0 <= size n) -> Forall bent_ok l -> forall p, 0 <= p -> p + total_size size l < 2 ^ 63 -> Forall bent_ok (with_ends size p l).
Proof.
  intros Hs. induction 1 as [|e l He _ IH]; intros p Hp Hlt; cbn [with_ends]; [constructor|]. change (total_size size (e :: l)) with (size (be_name e) + total_size size l) in Hlt.
  pose proof (Hs (be_name e)). assert (0 <= total_size size l). { clear -Hs. unfold total_size. induction l as [|e l IH]; cbn [fold_right]; [lia|]. pose proof (Hs (be_name e)). lia. }
  constructor; [|apply IH; lia]. destruct He as (H1 & H2 & H3 & H4 & H5). unfold bent_ok. cbn [be_name be_ino be_attr be_off]. refine (conj H1 (conj H2 (conj H3 (conj H4 _)))). unfold s64. lia.
Qed.
(** every entry carries the offset where it ends, which is where the next one begins *)
Theorem C46_auto : forall l, Forall bent_ok l -> total_size dirent_size l < 2 ^ 63 -> exists b : bytes, adds_auto [] l = Done b /\
  Z.of_nat (length b) = total_size dirent_size l /\ kernel_reads b = map want (with_ends dirent_size 0 l).
Proof.
  intros l Hl Hlt. rewrite adds_auto_eq by (eapply Forall_impl; [exact Hl|intros e He; apply He]). cbn [length].
  assert (Hs : forall n, 0 <= dirent_size n) by (intros n; unfold dirent_size; pose proof (align8_ge (24 + Z.of_nat (length n))); lia).
  destruct (C46_dirbuffer (with_ends dirent_size 0 l)) as (b & Hb & Hlen & Hr); [apply with_ends_ok; try assumption; lia|].
  exists b. split; [exact Hb|]. split; [|exact Hr]. rewrite Hlen. clear. change (Z.of_nat 0) with 0. generalize 0 at 1. induction l as [|e l IH]; intros p; [reflexivity|].
  unfold total_size in *. cbn [with_ends fold_right be_name]. rewrite IH. reflexivity.
Qed.
Theorem C46_auto_plus : forall l, Forall bent_ok l -> total_size direntplus_size l < 2 ^ 63 -> exists b : bytes, adds_plus_auto [] l = Done b /\
  Z.of_nat (length b) = total_size direntplus_size l /\ kernel_reads_plus b = map want_plus (with_ends direntplus_size 0 l).
Proof.
  intros l Hl Hlt. rewrite adds_plus_auto_eq by (eapply Forall_impl; [exact Hl|intros e He; apply He]). cbn [length].
  assert (Hs : forall n, 0 <= direntplus_size n) by (intros n; unfold direntplus_size; pose proof (align8_ge (152 + Z.of_nat (length n))); lia).
  destruct (C46_dirbuffer_plus (with_ends direntplus_size 0 l)) as (b & Hb & Hlen & Hr); [apply with_ends_ok; try assumption; lia|].
  exists b. split; [exact Hb|]. split; [|exact Hr]. rewrite Hlen. clear. change (Z.of_nat 0) with 0. generalize 0 at 1. induction l as [|e l IH]; intros p; [reflexivity|].
  unfold total_size in *. cbn [with_ends fold_right be_name]. rewrite IH. reflexivity.
Qed.
Print Assumptions C46_auto.
Print Assumptions C46_auto_plus.
Example C46_auto_sample : Forall bent_ok c46_entries /\ total_size dirent_size c46_entries < 2 ^ 63 /\ map be_off (with_ends dirent_size 0 c46_entries) = [32; 64].
Proof. split; [apply C46_sample|]. split; reflexivity. Qed.
