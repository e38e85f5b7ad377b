(** Byte strings, little-endian words, LMDB key order and ordered tables. *)
From stdpp Require Export gmap sorting fin_maps.
From Verif Require Export Prelude.

(** A byte string ([std::string], [MDB_val]): a list of numbers in 0..255. *)
Notation bytes := (list Z).

(** Little-endian representation of an [n]-byte unsigned integer (the code
    memcpy's native integers; x86-64/aarch64 are little-endian). *)
Fixpoint le (n : nat) (z : Z) : bytes :=
  match n with
  | O => []
  | S n => z mod 256 :: le n (z / 256)
  end.
Fixpoint unle (b : bytes) : Z :=
  match b with
  | [] => 0
  | x :: b => x + 256 * unle b
  end.
Definition le64 (z : Z) : bytes := le 8 z.

(** LMDB's default key comparison (mdb_cmp_memn): memcmp over the common length,
    then the length. *)
Fixpoint bcmp (a b : bytes) : comparison :=
  match a, b with
  | [], [] => Eq
  | [], _ :: _ => Lt
  | _ :: _, [] => Gt
  | x :: a, y :: b => match x ?= y with Eq => bcmp a b | c => c end
  end.
Definition ble (a b : bytes) : Prop := bcmp a b <> Gt.
Definition blt (a b : bytes) : Prop := bcmp a b = Lt.
Global Instance ble_dec a b : Decision (ble a b).
Proof. unfold ble. destruct (bcmp a b); [left|left|right]; congruence. Defined.
Global Instance blt_dec a b : Decision (blt a b).
Proof. unfold blt. destruct (bcmp a b); [right|left|right]; congruence. Defined.

Lemma bcmp_refl a : bcmp a a = Eq.
Proof. induction a as [|x a IH]; simpl; [reflexivity|]. rewrite Z.compare_refl. assumption. Qed.
Lemma bcmp_eq a b : bcmp a b = Eq <-> a = b.
Proof.
  split; [|intros ->; apply bcmp_refl]. revert b.
  induction a as [|x a IH]; intros [|y b]; simpl; try discriminate; [reflexivity|].
  destruct (Z.compare_spec x y); try discriminate. subst. intros H; f_equal; auto.
Qed.
Lemma bcmp_antisym a b : bcmp b a = CompOpp (bcmp a b).
Proof.
  revert b. induction a as [|x a IH]; intros [|y b]; simpl; try reflexivity.
  rewrite (Z.compare_antisym x y). destruct (x ?= y); simpl; auto.
Qed.
Lemma bcmp_lt_trans a b c : bcmp a b = Lt -> bcmp b c = Lt -> bcmp a c = Lt.
Proof.
  revert b c. induction a as [|x a IH]; intros [|y b] [|z c]; simpl; try discriminate; auto.
  destruct (Z.compare_spec x y), (Z.compare_spec y z); try discriminate; intros H1 H2;
    destruct (Z.compare_spec x z); try lia; try reflexivity; eauto.
Qed.
Lemma ble_lt_eq a b : ble a b <-> blt a b \/ a = b.
Proof.
  unfold ble, blt. rewrite <- bcmp_eq. destruct (bcmp a b); split; intros; auto; try congruence.
  destruct H; discriminate.
Qed.
Lemma blt_trans a b c : blt a b -> blt b c -> blt a c.
Proof. apply bcmp_lt_trans. Qed.
Lemma ble_trans a b c : ble a b -> ble b c -> ble a c.
Proof.
  rewrite !ble_lt_eq. intros [H1| ->] [H2| ->]; auto. left. eapply blt_trans; eauto.
Qed.
Lemma blt_le_trans a b c : blt a b -> ble b c -> blt a c.
Proof. rewrite ble_lt_eq. intros H1 [H2| ->]; [eapply blt_trans; eauto|assumption]. Qed.
Lemma ble_lt_trans a b c : ble a b -> blt b c -> blt a c.
Proof. rewrite ble_lt_eq. intros [H1| ->] H2; [eapply blt_trans; eauto|assumption]. Qed.
Lemma blt_irrefl a : ~ blt a a.
Proof. unfold blt. rewrite bcmp_refl. discriminate. Qed.
Lemma ble_refl a : ble a a.
Proof. unfold ble. rewrite bcmp_refl. discriminate. Qed.
Lemma ble_total a b : ble a b \/ ble b a.
Proof. unfold ble. rewrite (bcmp_antisym a b). destruct (bcmp a b); simpl; [left|left|right]; congruence. Qed.
Lemma ble_antisym a b : ble a b -> ble b a -> a = b.
Proof.
  rewrite !ble_lt_eq. intros [H1|H1] [H2|H2]; auto. exfalso. eapply blt_irrefl, blt_trans; eauto.
Qed.
Lemma not_ble a b : ~ ble a b <-> blt b a.
Proof.
  unfold ble, blt. rewrite (bcmp_antisym a b). destruct (bcmp a b); simpl; split; intros Hx; try congruence;
    exfalso; apply Hx; discriminate.
Qed.

(** common prefixes *)
Lemma bcmp_app a b x y : length a = length b ->
  bcmp (a ++ x) (b ++ y) = match bcmp a b with Eq => bcmp x y | c => c end.
Proof.
  revert b. induction a as [|u a IH]; intros [|v b]; simpl; try discriminate; try reflexivity.
  intros H. injection H as H. destruct (u ?= v); auto.
Qed.
Lemma bcmp_app_r a b y : length a = length b ->
  bcmp a (b ++ y) = match bcmp a b with Eq => match y with [] => Eq | _ => Lt end | c => c end.
Proof.
  intros H. rewrite <- (app_nil_r a) at 1. rewrite bcmp_app by assumption.
  destruct (bcmp a b), y; reflexivity.
Qed.

(** ** little-endian words *)
Lemma le_length n z : length (le n z) = n.
Proof. revert z. induction n as [|n IH]; intros z; simpl; auto. Qed.
Lemma unle_le n z : 0 <= z < 256 ^ Z.of_nat n -> unle (le n z) = z.
Proof.
  revert z. induction n as [|n IH]; intros z Hz.
  - cbn in *. lia.
  - cbn [le unle]. rewrite Nat2Z.inj_succ, Z.pow_succ_r in Hz by lia.
    rewrite IH by (split; [apply Z.div_pos; lia|apply Z.div_lt_upper_bound; lia]).
    pose proof (Z.div_mod z 256). lia.
Qed.
Lemma le_unle b : Forall (fun x => 0 <= x < 256) b -> le (length b) (unle b) = b.
Proof.
  induction 1 as [|x b Hx Hb IH]; [reflexivity|]. cbn [length le unle]. f_equal.
  - rewrite Z.mul_comm, Z.mod_add by lia. apply Z.mod_small; assumption.
  - rewrite Z.mul_comm, Z.div_add by lia. rewrite Z.div_small by assumption. assumption.
Qed.
Lemma le_bytes n z : Forall (fun x => 0 <= x < 256) (le n z).
Proof. revert z. induction n as [|n IH]; intros z; simpl; constructor; auto. apply Z.mod_pos_bound; lia. Qed.
Definition u64 (z : Z) : Prop := 0 <= z < 2 ^ 64.
Lemma le64_inj a b : u64 a -> u64 b -> le64 a = le64 b -> a = b.
Proof.
  intros Ha Hb E. rewrite <- (unle_le 8 a), <- (unle_le 8 b) by exact Ha || exact Hb. unfold le64 in E. congruence.
Qed.
Lemma le64_length a : length (le64 a) = 8%nat.
Proof. apply le_length. Qed.

(** ** ordered tables
    An LMDB database is a finite map from keys to values that is iterated in
    key order.  Tables are kept with structured keys and an encoding into byte
    strings; [enc] is injective on the keys that occur (proved in Codec.v). *)
Section table.
  Context {K V : Type} `{Countable K} (enc : K -> bytes).

  Definition kle (x y : K * V) : Prop := ble (enc x.1) (enc y.1).
  Global Instance kle_dec x y : Decision (kle x y).
  Proof. unfold kle. apply _. Defined.
  Global Instance kle_trans : Transitive kle.
  Proof. intros x y z. unfold kle. apply ble_trans. Qed.
  Global Instance kle_total : Total kle.
  Proof. intros x y. apply ble_total. Qed.

  (** all entries in key order *)
  Definition entries (m : gmap K V) : list (K * V) := merge_sort kle (map_to_list m).
  (** the entries a cursor visits from lower_bound(k) on *)
  Definition from_key (m : gmap K V) (k : bytes) : list (K * V) :=
    filter (fun e => ble k (enc e.1)) (entries m).
  (** lower_bound: first entry whose key is >= [k] *)
  Definition lower_bound (m : gmap K V) (k : bytes) : option (K * V) := head (from_key m k).

  Lemma elem_of_entries m k v : (k, v) ∈ entries m <-> m !! k = Some v.
  Proof. unfold entries. rewrite merge_sort_Permutation. apply elem_of_map_to_list. Qed.
  Lemma elem_of_from m b k v : (k, v) ∈ from_key m b <-> m !! k = Some v /\ ble b (enc k).
  Proof. unfold from_key. rewrite elem_of_list_filter, elem_of_entries. simpl. tauto. Qed.
  Lemma entries_sorted m : StronglySorted kle (entries m).
  Proof. apply (StronglySorted_merge_sort kle). Qed.
  Lemma NoDup_entries m : NoDup (entries m).*1.
  Proof. unfold entries. rewrite merge_sort_Permutation. apply NoDup_fst_map_to_list. Qed.
  Lemma filter_sorted (P : K * V -> Prop) `{!forall x, Decision (P x)} l :
    StronglySorted kle l -> StronglySorted kle (filter P l).
  Proof.
    induction 1 as [|x l Hs IH Hall]; [constructor|]. rewrite filter_cons. destruct (decide (P x)); [|assumption].
    constructor; [assumption|]. rewrite Forall_forall in *. intros y Hy.
    apply elem_of_list_filter in Hy as [_ Hy]. auto.
  Qed.
  Lemma from_sorted m b : StronglySorted kle (from_key m b).
  Proof. apply filter_sorted, entries_sorted. Qed.

  Lemma lower_bound_Some m b k v : lower_bound m b = Some (k, v) ->
    m !! k = Some v /\ ble b (enc k) /\
    forall k' v', m !! k' = Some v' -> ble b (enc k') -> ble (enc k) (enc k').
  Proof.
    unfold lower_bound. intros Hh. pose proof (from_sorted m b) as Hs.
    destruct (from_key m b) as [|[k0 v0] l] eqn:E; [discriminate|]. injection Hh as -> ->.
    assert (Hin : (k, v) ∈ from_key m b) by (rewrite E; left). apply elem_of_from in Hin as [H1 H2].
    split_and!; auto. intros k' v' Hk Hb.
    assert (Hin : (k', v') ∈ from_key m b) by (apply elem_of_from; auto). rewrite E in Hin.
    inversion Hs as [|? ? Hs' Hall]; subst. apply elem_of_cons in Hin as [Heq|Hin].
    - injection Heq as -> ->. apply ble_refl.
    - rewrite Forall_forall in Hall. apply (Hall _ Hin).
  Qed.
  Lemma lower_bound_None m b : lower_bound m b = None ->
    forall k v, m !! k = Some v -> ~ ble b (enc k).
  Proof.
    unfold lower_bound. intros Hh k v Hk Hb.
    assert (Hin : (k, v) ∈ from_key m b) by (apply elem_of_from; auto).
    destruct (from_key m b); [apply elem_of_nil in Hin; assumption|discriminate].
  Qed.
End table.
