(** Properties C68 (CachedDir) and C69 (Result<T>). *)
From Verif Require Import Prelude CacheModel Keys CachedDir.

(** ** C68: a CachedDir is the stream of the entries of the directory *)
Definition C68_full : Prop := forall vals os c, cdir_open vals = Done c -> exists c', cdir_run c os = Done (stream_run vals 0 os, c').

(** What it is instead: the answer to a read at position [p] is the entry at [p + 1], or the last one
    again, with offset [p]; and the end, once reached, is final. *)
Definition late_step (vals : list bytes) (s : nat * bool) (o : dop) : drep * (nat * bool) :=
  let '(p, e) := s in
  match o with
  | DRead =>
    if e then (DEnd, s) else
    let q := Nat.min (S p) (length vals - 1) in
    (match vals !! q with
     | Some v => match parse_entry v with Ok d => DEntry d (Z.of_nat p) | Err err => DErr err end
     | None => DEnd
     end, (q, Nat.eqb (S p) (length vals)))
  | DSeek off => if (0 <=? off) && (off <=? Z.of_nat p) then (DOk, (Z.to_nat off, e)) else (DErr EINVAL, s)
  end.
Fixpoint late_run (vals : list bytes) (s : nat * bool) (os : list dop) : list drep :=
  match os with [] => [] | o :: os => fst (late_step vals s o) :: late_run vals (snd (late_step vals s o)) os end.

Lemma parse_err v e : parse_entry v = Err e -> e = EIO.
Proof.
  unfold parse_entry, parse_entry_v1. destruct v as [|x v]; [congruence|]. destruct (x =? 1); [|congruence]. destruct (_ <=? _); congruence.
Qed.
Lemma prev_dup_ok n : forall vals p e sz off, (n <= p)%nat -> prev_dup n (mkCD vals p e sz off) = Done (mkCD vals (p - n) e sz (off - Z.of_nat n)).
Proof.
  induction n as [|n IH]; intros vals p e sz off H; cbn [prev_dup]; [rewrite Nat.sub_0_r, Z.sub_0_r; reflexivity|].
  destruct p as [|p]; [lia|]. cbn [cd_pos cd_vals cd_eof cd_size cd_off]. rewrite IH by lia. f_equal. f_equal; lia.
Qed.
Definition cd_ok (vals : list bytes) (s : nat * bool) (c : cdir) : Prop :=
  cd_vals c = vals /\ cd_pos c = fst s /\ cd_off c = Z.of_nat (fst s) /\ cd_eof c = snd s /\
  (snd s = false -> (fst s < length vals)%nat /\ cd_size c = -1).
Lemma late_step_ok vals s c o : cd_ok vals s c -> exists c', cdir_step c o = Done (fst (late_step vals s o), c') /\ cd_ok vals (snd (late_step vals s o)) c'.
Proof.
  intros (H1 & H2 & H3 & H4 & H5). destruct c as [vs pos eof sz off], s as [p e]. cbn [cd_vals cd_pos cd_off cd_eof cd_size fst snd] in *. subst vs pos eof. rewrite H3 in *. clear H3. destruct o as [|o]; cbn [cdir_step late_step].
  - unfold cdir_read. cbn [cd_eof cd_vals cd_pos cd_off cd_size]. destruct e; [eexists; split; [reflexivity|]; repeat split; cbn; try discriminate|].
    destruct (H5 eq_refl) as [Hp ->]. clear H5. destruct (lookup_lt_is_Some_2 vals p Hp) as [v Ev]. rewrite Ev.
    destruct (vals !! S p) as [v'|] eqn:Ev'.
    + pose proof (lookup_lt_Some _ _ _ Ev') as Hlt. cbn [obind]. replace (Nat.min (S p) (length vals - 1)) with (S p) by lia. rewrite Ev'.
      eexists. split; [f_equal; f_equal; unfold rep_read; destruct (parse_entry v') as [d|er] eqn:Ep; [reflexivity|rewrite (parse_err _ _ Ep); reflexivity]|].
      rewrite (proj2 (Nat.eqb_neq (S p) (length vals))) by lia. repeat split; cbn; try lia; auto.
    + pose proof (lookup_ge_None_1 _ _ Ev') as Hge. unfold mark_eof. cbn [cd_eof cd_size cd_vals cd_pos cd_off]. rewrite orb_true_r. cbn [assert_ obind].
      replace (Nat.min (S p) (length vals - 1)) with p by lia. rewrite Ev.
      eexists. split; [f_equal; f_equal; unfold rep_read; destruct (parse_entry v) as [d|er] eqn:Ep; [reflexivity|rewrite (parse_err _ _ Ep); reflexivity]|].
      rewrite (proj2 (Nat.eqb_eq (S p) (length vals))) by lia. repeat split; cbn; try lia; discriminate.
  - unfold cdir_seek. cbn [cd_off]. destruct (Z.ltb_spec o 0) as [Hl|Hl].
    { replace ((0 <=? o) && (o <=? Z.of_nat p)) with false by lia. eexists. split; [reflexivity|]. repeat split; cbn; auto; apply H5; assumption. }
    destruct (Z.ltb_spec (Z.of_nat p) o) as [Hg|Hg].
    { replace ((0 <=? o) && (o <=? Z.of_nat p)) with false by lia. eexists. split; [reflexivity|]. repeat split; cbn; auto; apply H5; assumption. }
    replace ((0 <=? o) && (o <=? Z.of_nat p)) with true by lia. cbn [fst snd]. destruct (Z.eqb_spec o (Z.of_nat p)) as [->|Hne].
    { rewrite Nat2Z.id. eexists. split; [reflexivity|]. repeat split; cbn; auto; apply H5; assumption. }
    rewrite prev_dup_ok by lia. cbn [obind]. eexists. split; [reflexivity|]. repeat split; cbn; try lia; auto.
Qed.

(** No sequence of calls fails an assertion or runs off the values, and this is what they answer. *)
Theorem C68_exact : forall vals os c, cdir_open vals = Done c ->
  exists c', cdir_run c os = Done (late_run vals (0%nat, bool_decide (vals = [])) os, c').
Proof.
  intros vals os c Ec.
  assert (H : cd_ok vals (0%nat, bool_decide (vals = [])) c).
  { destruct vals as [|v vals]; cbn in Ec; injection Ec as <-; repeat split; cbn; try discriminate; lia. }
  clear Ec. revert c H. generalize (0%nat, bool_decide (vals = [])). induction os as [|o os IH]; intros s c H; cbn [cdir_run late_run]; [eauto|].
  destruct (late_step_ok vals s c o H) as (c1 & E1 & H1). rewrite E1. cbn [obind]. destruct (IH _ _ H1) as (c2 & E2). rewrite E2. cbn [obind]. eauto.
Qed.
Print Assumptions C68_exact.

(** Reading a directory of well-formed entries from start to end, and [k] calls more: entry 0 is
    missing if there are others, the last one comes twice, and all offsets but the last are those of
    the entry before. *)
Lemma late_reads vals ds d0 k : Forall2 (fun v d => parse_entry v = Ok d) vals ds -> forall m p, (p + S m = length vals)%nat ->
  late_run vals (p, false) (replicate (S m + k) DRead) =
  imap (fun i d => DEntry d (Z.of_nat (p + i))) (drop (S p) ds ++ [List.last ds d0]) ++ replicate k DEnd.
Proof.
  intros H. pose proof (Forall2_length _ _ _ H) as Hlen.
  assert (Hat : forall q d, ds !! q = Some d -> exists v, vals !! q = Some v /\ parse_entry v = Ok d).
  { intros q d Hq. destruct (Forall2_lookup_r _ _ _ _ _ H Hq) as (v & Hv & Hp). eauto. }
  assert (Hend : forall q e, late_run vals (q, true) (replicate e DRead) = replicate e DEnd).
  { intros q e. induction e as [|e IH]; [reflexivity|]. cbn [replicate late_run late_step fst snd]. rewrite IH. reflexivity. }
  assert (Hun : forall s n, late_run vals s (replicate (S n) DRead) = fst (late_step vals s DRead) :: late_run vals (snd (late_step vals s DRead)) (replicate n DRead)) by reflexivity.
  induction m as [|m IH]; intros p Hp; [change (1 + k)%nat with (S k)|change (S (S m) + k)%nat with (S (S m + k))]; rewrite Hun; cbn [late_step fst snd].
  - replace (Nat.min (S p) (length vals - 1)) with p by lia. rewrite (proj2 (Nat.eqb_eq (S p) (length vals))) by lia.
    destruct (lookup_lt_is_Some_2 ds p ltac:(lia)) as [d Ed]. destruct (Hat _ _ Ed) as (v & Ev & Epv). rewrite Ev, Epv.
    rewrite drop_ge by lia. cbn [app imap]. rewrite Nat.add_0_r. rewrite Hend. cbn. do 2 f_equal.
    rewrite <- (take_drop_middle ds p d Ed). rewrite drop_ge by lia. rewrite List.last_last. reflexivity.
  - replace (Nat.min (S p) (length vals - 1)) with (S p) by lia. rewrite (proj2 (Nat.eqb_neq (S p) (length vals))) by lia.
    destruct (lookup_lt_is_Some_2 ds (S p) ltac:(lia)) as [d Ed]. destruct (Hat _ _ Ed) as (v & Ev & Epv). rewrite Ev, Epv.
    rewrite (IH (S p)) by lia.
    rewrite (drop_S ds d (S p) Ed). cbn [app imap]. rewrite Nat.add_0_r. cbn [app]. f_equal. f_equal. apply imap_ext. intros i x _. cbn. do 2 f_equal. lia.
Qed.
Theorem C68_listing : forall vals d0 ds c k, cdir_open vals = Done c -> Forall2 (fun v d => parse_entry v = Ok d) vals (d0 :: ds) ->
  exists c', cdir_run c (replicate (length vals + k) DRead) =
    Done (imap (fun p d => DEntry d (Z.of_nat p)) (ds ++ [List.last ds d0]) ++ replicate k DEnd, c').
Proof.
  intros vals d0 ds c k Ec H. destruct (C68_exact vals (replicate (length vals + k) DRead) c Ec) as (c' & E). exists c'. rewrite E. do 2 f_equal.
  pose proof (Forall2_length _ _ _ H) as Hlen. cbn in Hlen. rewrite bool_decide_false by (intros ->; discriminate).
  rewrite Hlen. rewrite (late_reads vals (d0 :: ds) d0 k H (length ds) 0) by lia. cbn [drop]. do 3 f_equal. destruct ds; reflexivity.
Qed.
Print Assumptions C68_listing.

(** The claim holds of directories with at most one entry, read from start to end. *)
Theorem C68_small_partial : forall vals c k, cdir_open vals = Done c -> (length vals <= 1)%nat ->
  exists c', cdir_run c (replicate k DRead) = Done (stream_run vals 0 (replicate k DRead), c').
Proof.
  intros vals c k Ec Hl. destruct (C68_exact vals (replicate k DRead) c Ec) as (c' & E). exists c'. rewrite E. do 2 f_equal.
  assert (Hend : forall p e, (length vals <= p)%nat -> late_run vals (e, true) (replicate k DRead) = stream_run vals p (replicate k DRead)).
  { intros p e Hp. clear -Hp. induction k as [|k IH]; [reflexivity|]. cbn [replicate late_run stream_run late_step stream_step fst snd]. rewrite lookup_ge_None_2 by lia. cbn [fst snd]. f_equal. exact IH. }
  destruct vals as [|v [|? ?]]; cbn in Hl; [| |lia].
  - rewrite bool_decide_true by reflexivity. apply Hend. cbn. lia.
  - rewrite bool_decide_false by discriminate. destruct k as [|k]; [reflexivity|]. cbn [replicate late_run stream_run late_step stream_step fst snd length Nat.min Nat.sub Nat.eqb lookup list_lookup].
    f_equal. clear -v. induction k as [|k IH]; [reflexivity|]. cbn [replicate late_run stream_run late_step stream_step fst snd lookup list_lookup]. f_equal. exact IH.
Qed.
Print Assumptions C68_small_partial.

Definition ent (c : Z) : bytes := 1 :: le64 (c - 90) ++ le 4 33188 ++ [c].
Definition three : list bytes := [ent 97; ent 98; ent 99].
Theorem C68_refuted_first : ~ C68_full.
Proof.
  intros H. destruct (H three [DRead] (mkCD three 0 false (-1) 0) eq_refl) as (c' & E). apply (f_equal (fun x => match x with Done (rs, _) => rs | _ => [] end)) in E. vm_compute in E. discriminate E.
Qed.
Print Assumptions C68_refuted_first.
(** the end is final: going back to the start of a directory with one entry shows nothing *)
Theorem C68_refuted_rewind : ~ C68_full.
Proof.
  intros H. destruct (H [ent 97] [DRead; DRead; DSeek 0; DRead] (mkCD [ent 97] 0 false (-1) 0) eq_refl) as (c' & E).
  apply (f_equal (fun x => match x with Done (rs, _) => rs | _ => [] end)) in E. vm_compute in E. discriminate E.
Qed.
Print Assumptions C68_refuted_rewind.
Example C68_sample : exists c c', cdir_open three = Done c /\ Forall2 (fun v d => parse_entry v = Ok d) three [mkDent 7 33188 [97]; mkDent 8 33188 [98]; mkDent 9 33188 [99]] /\
  cdir_run c [DRead; DSeek 0; DRead; DRead; DSeek 3; DRead; DRead] =
    Done ([DEntry (mkDent 8 33188 [98]) 0; DOk; DEntry (mkDent 8 33188 [98]) 0; DEntry (mkDent 9 33188 [99]) 1; DErr EINVAL; DEntry (mkDent 9 33188 [99]) 2; DEnd], c').
Proof. eexists _, _. split; [reflexivity|]. split; [repeat constructor; vm_compute; reflexivity|]. vm_compute. reflexivity. Qed.

(** ** The record of one entry: exactly the byte strings version 1, inode number, mode, non-empty name
    are understood, all others give EIO. *)
Theorem C68_record : forall b d, Forall (fun x => 0 <= x < 256) b ->
  (parse_entry b = Ok d <-> 0 <= de_ino d < 2 ^ 64 /\ 0 <= de_mode d < 2 ^ 32 /\ de_name d <> [] /\ b = 1 :: le 8 (de_ino d) ++ le 4 (de_mode d) ++ de_name d).
Proof.
  intros b [ino mode name] Hb. cbn [de_ino de_mode de_name]. split.
  - intros E. destruct b as [|v b]; [discriminate|]. cbn [parse_entry] in E. destruct (Z.eqb_spec v 1) as [->|]; [|discriminate]. unfold parse_entry_v1 in E.
    destruct (Z.leb_spec (Z.of_nat (length b)) 12) as [|Hl]; [discriminate|]. inversion Hb as [|? ? _ Hb']; subst. clear Hb.
    assert (E8 : b = firstn 8 b ++ firstn 4 (skipn 8 b) ++ skipn 12 b).
    { rewrite <- (firstn_skipn 8 b) at 1. f_equal. rewrite <- (firstn_skipn 4 (skipn 8 b)) at 1. f_equal. rewrite drop_drop. reflexivity. }
    assert (H8 : Forall (fun x => 0 <= x < 256) (firstn 8 b)) by (apply Forall_take; exact Hb').
    assert (H4 : Forall (fun x => 0 <= x < 256) (firstn 4 (skipn 8 b))) by (apply Forall_take, Forall_drop; exact Hb').
    assert (L8 : length (firstn 8 b) = 8%nat) by (rewrite firstn_length; lia).
    assert (L4 : length (firstn 4 (skipn 8 b)) = 4%nat) by (rewrite firstn_length, skipn_length; lia).
    assert (Hu : forall l : bytes, Forall (fun x => 0 <= x < 256) l -> 0 <= unle l < 256 ^ Z.of_nat (length l)).
    { clear. induction 1 as [|x l Hx Hl IH]; [cbn; lia|]. cbn [unle length]. rewrite Nat2Z.inj_succ, Z.pow_succ_r by lia. lia. }
    pose proof (Hu _ H8) as R8. pose proof (Hu _ H4) as R4. rewrite L8 in R8. rewrite L4 in R4.
    injection E as <- <- <-. split; [exact R8|]. split; [exact R4|]. split.
    + intros E. apply (f_equal length) in E. rewrite skipn_length in E. cbn in E. lia.
    + assert (F8 : le 8 (unle (firstn 8 b)) = firstn 8 b) by (rewrite <- (le_unle _ H8) at 2; rewrite L8; reflexivity).
      assert (F4 : le 4 (unle (firstn 4 (skipn 8 b))) = firstn 4 (skipn 8 b)) by (rewrite <- (le_unle _ H4) at 2; rewrite L4; reflexivity).
      rewrite F8, F4. f_equal. exact E8.
  - intros (Hi & Hm & Hn & ->). cbn [parse_entry]. rewrite Z.eqb_refl. unfold parse_entry_v1.
    assert (length (le 8 ino ++ le 4 mode ++ name) = 12 + length name)%nat as -> by (rewrite !app_length, !le_length; lia).
    assert (0 < length name)%nat by (destruct name; [contradiction|cbn; lia]).
    destruct (Z.leb_spec (Z.of_nat (12 + length name)) 12); [lia|]. f_equal. f_equal.
    + rewrite take_app_alt by (rewrite le_length; reflexivity). apply unle_le. exact Hi.
    + rewrite drop_app_alt by (rewrite le_length; reflexivity). rewrite take_app_alt by (rewrite le_length; reflexivity). apply unle_le. exact Hm.
Qed.
Print Assumptions C68_record.
Theorem C68_record_error : forall b e, parse_entry b = Err e -> e = EIO.
Proof. intros [|v b] e; cbn [parse_entry]; [congruence|]. unfold parse_entry_v1. destruct (v =? 1); [destruct (_ <=? _)|]; congruence. Qed.
Print Assumptions C68_record_error.

(** ** C69: a failure stays a failure, whatever it is passed through *)
(** ways to pass a result on: copying or moving it, copy_error, and converting it to a result of
    another type *)
Inductive pass := PCopy | PCopyError | PConvert.
Definition passed (r : cres Z) (p : pass) : cres Z :=
  match p with PCopy => r | PCopyError => res_copy_error r | PConvert => res_convert (fun v => v) 0 r end.
Definition pass_on (r : cres Z) (ps : list pass) : cres Z := fold_left passed ps r.
Definition C69_full : Prop := forall ps err, res_bool (pass_on (res_failed err) ps) = false /\ r_errno (pass_on (res_failed err) ps) = err.
(** The error code is never lost; the failure is, exactly when the last step that is not a copy is a conversion. *)
Fixpoint last_pass (ps : list pass) (acc : bool) : bool :=
  match ps with [] => acc | PCopy :: ps => last_pass ps acc | PCopyError :: ps => last_pass ps false | PConvert :: ps => last_pass ps true end.
Theorem C69_exact : forall ps err, r_errno (pass_on (res_failed err) ps) = err /\ res_bool (pass_on (res_failed err) ps) = last_pass ps false.
Proof.
  intros ps err. unfold pass_on.
  enough (H : forall ps r, r_errno (fold_left passed ps r) = r_errno r /\ res_bool (fold_left passed ps r) = last_pass ps (res_bool r)) by apply H.
  clear. induction ps as [|[| |] ps IH]; intros r; cbn [fold_left last_pass]; [auto|apply IH| |].
  - destruct (IH (passed r PCopyError)) as [H1 H2]. rewrite H1, H2. split; reflexivity.
  - destruct (IH (passed r PConvert)) as [H1 H2]. rewrite H1, H2. split; reflexivity.
Qed.
Print Assumptions C69_exact.
Theorem C69_failure_partial : forall ps err, PConvert ∉ ps -> res_bool (pass_on (res_failed err) ps) = false /\ r_errno (pass_on (res_failed err) ps) = err /\
  res_deref (pass_on (res_failed err) ps) = Throw.
Proof.
  intros ps err Hn. destruct (C69_exact ps err) as [H1 H2].
  assert (H3 : res_bool (pass_on (res_failed err) ps) = false).
  { rewrite H2. clear H1 H2. enough (forall b, b = false -> last_pass ps b = false) by auto. induction ps as [|[| |] ps IH]; intros b Hb; cbn [last_pass]; auto; apply not_elem_of_cons in Hn as [Hn1 Hn2]; auto. congruence. }
  split_and!; auto. unfold res_bool in H3. unfold res_deref. destruct (r_value _); [discriminate|reflexivity].
Qed.
Print Assumptions C69_failure_partial.
(** A success stays one, with its value, as long as nobody takes its error. *)
Theorem C69_success : forall ps v, PCopyError ∉ ps -> res_deref (pass_on (res_of_value v) ps) = Done v /\ res_bool (pass_on (res_of_value v) ps) = true /\ r_errno (pass_on (res_of_value v) ps) = 0.
Proof.
  intros ps v Hn. unfold pass_on. enough (fold_left passed ps (res_of_value v) = res_of_value v) as -> by auto.
  induction ps as [|p ps IH]; [reflexivity|]. apply not_elem_of_cons in Hn as [Hn1 Hn2]. destruct p; [|congruence|]; cbn [fold_left]; apply IH; exact Hn2.
Qed.
Print Assumptions C69_success.
Theorem C69_refuted : ~ C69_full.
Proof. intros H. destruct (H [PConvert] 5) as [H1 _]. discriminate H1. Qed.
Print Assumptions C69_refuted.
Example C69_sample : PConvert ∉ [PCopy; PCopyError; PCopy] /\ pass_on (res_failed 5) [PCopy; PConvert; PCopy] = mkRes (Some 0) 5 /\ pass_on (res_failed 5) [PConvert; PCopyError] = res_failed 5.
Proof. split; [intros H; apply elem_of_list_In in H; cbn in H; intuition discriminate|split; reflexivity]. Qed.

(** The same with Result<void> among the results: a failure that is copied, or handed on with
    copy_error as a result with a value or as one without, any number of times, is still that failure. *)
Inductive anyres := AVal (r : cres Z) | AVoid (r : vres).
Definition any_bool (a : anyres) : bool := match a with AVal r => res_bool r | AVoid r => v_ok r end.
Definition any_errno (a : anyres) : Z := match a with AVal r => r_errno r | AVoid r => v_errno r end.
Inductive hand := HCopy | HErrVal | HErrVoid.
Definition handed (a : anyres) (h : hand) : anyres :=
  match h, a with
  | HCopy, _ => a
  | HErrVal, AVal r => AVal (res_copy_error r)
  | HErrVal, AVoid r => AVal (res_copy_error_void r)
  | HErrVoid, AVal r => AVoid (vres_copy_error r)
  | HErrVoid, AVoid r => AVoid (vres_copy_error_void r)
  end.
Theorem C69_void : forall hs err a, a = AVal (res_failed err) \/ a = AVoid (vres_failed err) ->
  any_bool (fold_left handed hs a) = false /\ any_errno (fold_left handed hs a) = err.
Proof.
  intros hs err a Ha. assert (H : any_bool a = false /\ any_errno a = err) by (destruct Ha as [-> | ->]; split; reflexivity). clear Ha. revert a H.
  induction hs as [|h hs IH]; intros a H; cbn [fold_left]; [exact H|]. apply IH. destruct H as [H1 H2], h, a; cbn in *; auto.
Qed.
Print Assumptions C69_void.
(** A success without a value is one, with error code 0, and stays one when copied; copy_error of it is
    the failure with error code 0, which is what a caller who asks without looking first gets. *)
Theorem C69_void_success : forall hs, any_errno (fold_left handed hs (AVoid vres_ok)) = 0 /\
  (any_bool (fold_left handed hs (AVoid vres_ok)) = true <-> Forall (eq HCopy) hs).
Proof.
  assert (Hf : forall hs a, any_bool a = false -> any_bool (fold_left handed hs a) = false).
  { induction hs as [|h hs IH]; intros a H; cbn [fold_left]; [exact H|]. apply IH. destruct h, a; cbn in *; auto. }
  assert (He : forall hs a, any_errno (fold_left handed hs a) = any_errno a).
  { induction hs as [|h hs IH]; intros a; cbn [fold_left]; [reflexivity|]. rewrite IH. destruct h, a; reflexivity. }
  intros hs. split; [rewrite He; reflexivity|]. induction hs as [|h hs IH]; cbn [fold_left]; [split; [constructor|reflexivity]|].
  destruct h; [rewrite Forall_cons; cbn [handed]; rewrite IH; intuition| |]; (split; [rewrite Hf by reflexivity; discriminate|intros H; inversion H; discriminate]).
Qed.
Print Assumptions C69_void_success.
Example C69_void_sample : fold_left handed [HErrVoid; HCopy; HErrVal] (AVoid (vres_failed 22)) = AVal (res_failed 22) /\ any_bool (AVoid vres_ok) = true.
Proof. split; reflexivity. Qed.
