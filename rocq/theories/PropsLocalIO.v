(** Property C67: a file object of the local backend works on the file it was opened on. *)
From Verif Require Import Prelude CacheModel LocalIO.

(** The full claim: the descriptors are never seen. *)
Definition io_start (w : iow) (s : files_spec) : Prop := w_objs w = ∅ /\ s = mkS (w_files w) ∅.
Definition C67_full : Prop := forall w s ps, io_start w s -> io_legals w ps ->
  exists rs w' s', io_run w ps = Done (rs, w') /\ spec_run s ps = (rs, s') /\ w_files w' = s_files s'.

(** [cl]: objects are closed by close() too; then none has descriptor 0 *)
Record io_rel (cl : bool) (w : iow) (s : files_spec) : Prop := {
  ir_files : w_files w = s_files s;
  ir_dom : forall o, w_objs w !! o = None <-> s_objs s !! o = None;
  ir_open : forall o ino, s_objs s !! o = Some (Some ino) -> exists fd, w_objs w !! o = Some fd /\ w_fdt w !! fd = Some ino /\ 0 <= fd /\ (cl = true -> fd <> 0);
  ir_closed : forall o, s_objs s !! o = Some None -> cl = true /\ w_objs w !! o = Some 0;
  ir_inj : forall o o' ino ino' fd, s_objs s !! o = Some (Some ino) -> s_objs s !! o' = Some (Some ino') -> w_objs w !! o = Some fd -> w_objs w !! o' = Some fd -> o = o' }.

Definition tame (cl : bool) (p : iop) : Prop :=
  match p with
  | IOpen _ fd _ => cl = true -> fd <> 0
  | IClose _ ok => cl = true /\ ok = true
  | _ => True
  end.
Lemma rel_use cl w s o fd : io_rel cl w s -> w_objs w !! o = Some fd -> s_objs s !! o <> Some None ->
  exists ino, s_objs s !! o = Some (Some ino) /\ w_fdt w !! fd = Some ino /\ 0 <= fd /\ (cl = true -> fd <> 0).
Proof.
  intros H Ho Hn. destruct (s_objs s !! o) as [[ino|]|] eqn:Es; [|contradiction|apply (ir_dom _ _ _ H) in Es; congruence].
  destruct (ir_open _ _ _ H _ _ Es) as (fd' & Ho' & H1 & H2 & H3). assert (fd' = fd) by congruence. subst. eauto.
Qed.
Lemma rel_files cl w s ino c : io_rel cl w s -> io_rel cl (set_file w ino c) (mkS (<[ino := c]> (s_files s)) (s_objs s)).
Proof. intros [H1 H2 H3 H4 H5]. constructor; cbn; auto. rewrite H1. reflexivity. Qed.
Lemma at_fd_eq w fd ino f : w_fdt w !! fd = Some ino -> at_fd w fd f = f ino (default [] (w_files w !! ino)).
Proof. intros E. unfold at_fd. rewrite E. destruct (w_files w !! ino); reflexivity. Qed.
Lemma on_file_eq s o ino f : s_objs s !! o = Some (Some ino) -> on_file s o f = f ino (default [] (s_files s !! ino)).
Proof. intros E. unfold on_file. rewrite E. reflexivity. Qed.

Lemma io_step_rel cl w s p : io_rel cl w s -> io_legal w p -> tame cl p ->
  match p with IRead o _ _ _ | IWrite o _ _ _ | IStat o _ | ISync o _ | IClose o _ => s_objs s !! o <> Some None | _ => True end ->
  exists w', io_step w p = Done (fst (spec_step s p), w') /\ io_rel cl w' (snd (spec_step s p)).
Proof.
  intros H Hl Ht Hu. pose proof (ir_files _ _ _ H) as Hf. destruct p as [o fd ino|o count off k|o d off k|o k|o k|o ok|o ok|ino c]; cbn [io_step spec_step io_legal tame] in *.
  - destruct Hl as (Hn & Hp & Hfd). eexists. split; [reflexivity|]. destruct H as [H1 H2 H3 H4 H5].
    assert (Hs : s_objs s !! o = None) by (apply H2; exact Hn).
    assert (Hold : forall o' ino', s_objs s !! o' = Some (Some ino') -> w_objs w !! o' <> Some fd).
    { intros o' ino' E E'. destruct (H3 _ _ E) as (fd' & E1 & E2 & _). congruence. }
    constructor; cbn; auto.
    + intros o'. destruct (decide (o = o')) as [<-|]; [rewrite !lookup_insert; split; discriminate|rewrite !lookup_insert_ne by assumption; apply H2].
    + intros o' ino'. destruct (decide (o = o')) as [<-|Hne].
      * rewrite !lookup_insert. intros [= <-]. exists fd. rewrite lookup_insert. auto.
      * rewrite !lookup_insert_ne by assumption. intros E. destruct (H3 _ _ E) as (fd' & E1 & E2 & E3 & E4). exists fd'. split_and!; auto. rewrite lookup_insert_ne; [exact E2|congruence].
    + intros o'. destruct (decide (o = o')) as [<-|Hne]; [rewrite lookup_insert; discriminate|rewrite !lookup_insert_ne by assumption; apply H4].
    + intros o1 o2 i1 i2 fd'. destruct (decide (o = o1)) as [<-|Hn1], (decide (o = o2)) as [<-|Hn2]; rewrite ?lookup_insert; rewrite ?lookup_insert_ne by assumption; auto.
      * intros _ E [= <-] E2. destruct (Hold _ _ E E2).
      * intros E _ E2 [= <-]. destruct (Hold _ _ E E2).
      * apply H5.
  - destruct Hl as [fd Ho]. rewrite Ho. destruct (rel_use _ _ _ _ _ H Ho Hu) as (ino & Es & Efd & _). rewrite (at_fd_eq _ _ _ _ Efd), (on_file_eq _ _ _ _ Es), Hf.
    destruct (file_read _ count off k) as [d|e]; eexists; (split; [reflexivity|exact H]).
  - destruct Hl as [fd Ho]. rewrite Ho. destruct (rel_use _ _ _ _ _ H Ho Hu) as (ino & Es & Efd & _). rewrite (at_fd_eq _ _ _ _ Efd), (on_file_eq _ _ _ _ Es), Hf.
    destruct (file_write _ d off k) as [[n c']|e]; eexists; (split; [reflexivity|]); [apply rel_files; exact H|exact H].
  - destruct Hl as [fd Ho]. rewrite Ho. destruct (rel_use _ _ _ _ _ H Ho Hu) as (ino & Es & Efd & _). rewrite (at_fd_eq _ _ _ _ Efd), (on_file_eq _ _ _ _ Es), Hf.
    destruct k; eexists; (split; [reflexivity|exact H]).
  - destruct Hl as [fd Ho]. rewrite Ho. destruct (rel_use _ _ _ _ _ H Ho Hu) as (ino & Es & Efd & _). rewrite (at_fd_eq _ _ _ _ Efd), (on_file_eq _ _ _ _ Es).
    destruct k; eexists; (split; [reflexivity|exact H]).
  - destruct Ht as [-> ->]. destruct Hl as [fd Ho]. rewrite Ho. destruct (rel_use _ _ _ _ _ H Ho Hu) as (ino & Es & Efd & Hge & Hnz).
    unfold io_close, sys_close. rewrite Efd, (on_file_eq _ _ _ _ Es). cbn [fst snd]. eexists. split; [reflexivity|]. destruct H as [H1 H2 H3 H4 H5].
    assert (Hoth : forall o' ino', o <> o' -> s_objs s !! o' = Some (Some ino') -> w_objs w !! o' <> Some fd).
    { intros o' ino' Hne E E'. apply Hne. eapply H5; eauto. }
    constructor; cbn; auto.
    + intros o'. destruct (decide (o = o')) as [<-|]; [rewrite !lookup_insert; split; discriminate|rewrite !lookup_insert_ne by assumption; apply H2].
    + intros o' ino'. destruct (decide (o = o')) as [<-|Hne]; [rewrite lookup_insert; discriminate|]. rewrite !lookup_insert_ne by assumption.
      intros E. destruct (H3 _ _ E) as (fd' & E1 & E2 & E3 & E4). exists fd'. split_and!; auto. rewrite lookup_delete_ne; [exact E2|]. intros ->. exact (Hoth _ _ Hne E E1).
    + intros o'. destruct (decide (o = o')) as [<-|Hne]; [rewrite !lookup_insert; auto|rewrite !lookup_insert_ne by assumption; apply H4].
    + intros o1 o2 i1 i2 fd'. destruct (decide (o = o1)) as [<-|Hn1]; [rewrite lookup_insert; discriminate|]. destruct (decide (o = o2)) as [<-|Hn2]; [intros _; rewrite lookup_insert; discriminate|].
      rewrite !lookup_insert_ne by assumption. apply H5.
  - destruct Hl as [fd Ho]. rewrite Ho. eexists. split; [reflexivity|].
    (* the descriptor the destructor closes is that of the object, or 0 *)
    assert (Hfd : 0 <= fd /\ forall o' ino', o <> o' -> s_objs s !! o' = Some (Some ino') -> w_objs w !! o' <> Some fd).
    { destruct (s_objs s !! o) as [[ino|]|] eqn:Es.
      - destruct (rel_use _ _ _ _ _ H Ho ltac:(congruence)) as (_ & _ & _ & Hge & _). split; [exact Hge|]. intros o' ino' Hne E E'. apply Hne. eapply (ir_inj _ _ _ H); eauto.
      - destruct (ir_closed _ _ _ H _ Es) as [-> E0]. assert (fd = 0) as -> by congruence. split; [lia|]. intros o' ino' Hne E E'.
        destruct (ir_open _ _ _ H _ _ E) as (fd' & E1 & _ & _ & E4). apply E4; [reflexivity|congruence].
      - apply (ir_dom _ _ _ H) in Es. congruence. }
    destruct Hfd as [Hge Hoth]. rewrite (proj2 (Z.leb_le 0 fd) Hge).
    assert (Hw : exists t ob, snd (io_close w o fd ok) = mkW (w_files w) t ob /\ (forall x, x <> fd -> t !! x = w_fdt w !! x) /\ (forall x, x <> o -> ob !! x = w_objs w !! x)).
    { unfold io_close, sys_close. destruct (w_fdt w !! fd); cbn [fst snd]; [destruct ok; cbn [fst snd]|].
      - eexists _, _. split; [reflexivity|]. split; [intros x Hx; apply lookup_delete_ne; congruence|intros x Hx; apply lookup_insert_ne; congruence].
      - eexists _, _. split; [reflexivity|]. split; [intros x Hx; apply lookup_delete_ne; congruence|reflexivity].
      - exists (w_fdt w), (w_objs w). split; [destruct w; reflexivity|]. split; reflexivity. }
    destruct Hw as (t & ob & -> & Ht1 & Ht2). destruct H as [H1 H2 H3 H4 H5]. constructor; cbn; auto.
    + intros o'. destruct (decide (o = o')) as [<-|]; [rewrite !lookup_delete; tauto|rewrite !lookup_delete_ne, Ht2 by congruence; apply H2].
    + intros o' ino'. destruct (decide (o = o')) as [<-|Hne]; [rewrite lookup_delete; discriminate|]. rewrite !lookup_delete_ne, Ht2 by congruence.
      intros E. destruct (H3 _ _ E) as (fd' & E1 & E2 & E3 & E4). exists fd'. split_and!; auto. rewrite Ht1; [exact E2|]. intros ->. exact (Hoth _ _ Hne E E1).
    + intros o'. destruct (decide (o = o')) as [<-|Hne]; [rewrite lookup_delete; discriminate|rewrite !lookup_delete_ne, Ht2 by congruence; apply H4].
    + intros o1 o2 i1 i2 fd'. destruct (decide (o = o1)) as [<-|Hn1]; [rewrite lookup_delete; discriminate|]. destruct (decide (o = o2)) as [<-|Hn2]; [intros _; rewrite lookup_delete; discriminate|].
      rewrite !lookup_delete_ne, !Ht2 by congruence. apply H5.
  - eexists. split; [reflexivity|]. apply rel_files. exact H.
Qed.
Lemma io_run_rel cl ps : forall w s, io_rel cl w s -> io_legals w ps -> Forall (tame cl) ps -> no_use_closed s ps ->
  exists w', io_run w ps = Done (fst (spec_run s ps), w') /\ io_rel cl w' (snd (spec_run s ps)).
Proof.
  induction ps as [|p ps IH]; intros w s H Hl Ht Hu; [exists w; split; [reflexivity|exact H]|].
  inversion Ht as [|? ? Ht1 Ht2]; subst. destruct Hl as [Hl1 Hl2]. destruct Hu as [Hu1 Hu2].
  destruct (io_step_rel cl w s p H Hl1 Ht1 Hu1) as (w1 & E1 & H1). rewrite E1 in Hl2.
  destruct (IH w1 _ H1 Hl2 Ht2 Hu2) as (w2 & E2 & H2). exists w2. cbn [io_run spec_run fst snd]. rewrite E1. cbn [obind]. rewrite E2. cbn [obind]. split; [reflexivity|exact H2].
Qed.
Lemma io_rel_start cl w s : io_start w s -> io_rel cl w s.
Proof. intros [E ->]. constructor; cbn; [reflexivity|intros o; rewrite E, !lookup_empty; tauto| | |]; intros o; rewrite lookup_empty; discriminate. Qed.

(** ** True as long as close() is not called: objects are only destroyed. *)
Theorem C67_no_close_partial : forall w s ps, io_start w s -> io_legals w ps -> (forall o ok, IClose o ok ∉ ps) ->
  exists rs w' s', io_run w ps = Done (rs, w') /\ spec_run s ps = (rs, s') /\ w_files w' = s_files s'.
Proof.
  intros w s ps H0 Hl Hn.
  assert (Ht : Forall (tame false) ps).
  { apply Forall_forall. intros [o fd ino|o c f k|o d f k|o k|o k|o ok|o ok|i c] Hp; cbn; try exact I; try discriminate. destruct (Hn _ _ Hp). }
  assert (Hu : forall ps s, (forall o ok, IClose o ok ∉ ps) -> (forall o, s_objs s !! o <> Some None) -> no_use_closed s ps).
  { clear. induction ps as [|p ps IH]; intros s Hn Hs; [exact I|]. cbn [no_use_closed].
    split; [destruct p; auto|]. apply IH; [intros o ok Hp; apply (Hn o ok); constructor; exact Hp|].
    destruct p as [o fd ino|o c f k|o d f k|o k|o k|o ok|o ok|i c]; cbn [spec_step snd s_objs].
    - intros o'. destruct (decide (o = o')) as [<-|]; [rewrite lookup_insert; discriminate|rewrite lookup_insert_ne by assumption; apply Hs].
    - unfold on_file. destruct (s_objs s !! o) as [[|]|]; cbn; auto. destruct (file_read _ _ _ _); exact Hs.
    - unfold on_file. destruct (s_objs s !! o) as [[|]|]; cbn; auto. destruct (file_write _ _ _ _) as [[]|]; exact Hs.
    - unfold on_file. destruct (s_objs s !! o) as [[|]|]; cbn; auto. destruct k; exact Hs.
    - unfold on_file. destruct (s_objs s !! o) as [[|]|]; cbn; auto. destruct k; exact Hs.
    - exfalso. apply (Hn o ok). constructor.
    - intros o'. destruct (decide (o = o')) as [<-|]; [rewrite lookup_delete; discriminate|rewrite lookup_delete_ne by assumption; apply Hs].
    - exact Hs. }
  assert (Hu' : no_use_closed s ps). { apply Hu; [exact Hn|]. destruct H0 as [_ ->]. intros o. cbn. rewrite lookup_empty. discriminate. }
  destruct (io_run_rel false ps w s (io_rel_start _ _ _ H0) Hl Ht Hu') as (w' & E & H'). exists (fst (spec_run s ps)), w', (snd (spec_run s ps)).
  split; [exact E|]. split; [destruct (spec_run s ps); reflexivity|]. apply (ir_files _ _ _ H').
Qed.
Print Assumptions C67_no_close_partial.

(** ** With close(): true if no call of close() fails, nothing is called on an object after its
    close(), and no object ever gets descriptor 0. *)
Theorem C67_close_partial : forall w s ps, io_start w s -> io_legals w ps ->
  (forall o, IClose o false ∉ ps) -> no_use_closed s ps -> (forall o ino, IOpen o 0 ino ∉ ps) ->
  exists rs w' s', io_run w ps = Done (rs, w') /\ spec_run s ps = (rs, s') /\ w_files w' = s_files s'.
Proof.
  intros w s ps H0 Hl Hn Hu Hz.
  assert (Ht : Forall (tame true) ps).
  { apply Forall_forall. intros [o fd ino|o c f k|o d f k|o k|o k|o ok|o ok|i c] Hp; cbn; auto.
    - intros _ ->. destruct (Hz _ _ Hp).
    - destruct ok; [auto|destruct (Hn _ Hp)]. }
  destruct (io_run_rel true ps w s (io_rel_start _ _ _ H0) Hl Ht Hu) as (w' & E & H'). exists (fst (spec_run s ps)), w', (snd (spec_run s ps)).
  split; [exact E|]. split; [destruct (spec_run s ps); reflexivity|]. apply (ir_files _ _ _ H').
Qed.
Print Assumptions C67_close_partial.

(** ** The contents, byte by byte. *)
(** what pread gives: the bytes from the offset on, at most [count] *)
Theorem C67_read_bytes : forall c count off k d, file_read c count off k = Ok d ->
  0 <= off /\ (length d <= count)%nat /\
  (forall i, (i < length d)%nat -> d !! i = c !! (Z.to_nat off + i)%nat) /\
  (forall n, k = Ok n -> (count <= n)%nat -> length d = Nat.min count (length c - Z.to_nat off)).
Proof.
  intros c count off k d. unfold file_read. destruct (Z.ltb_spec off 0); [discriminate|]. destruct k as [n|e]; [|discriminate]. intros [= <-].
  split; [lia|]. split; [rewrite firstn_length, skipn_length; lia|]. split.
  - intros i Hi. rewrite firstn_length in Hi. rewrite lookup_take by lia. apply lookup_drop.
  - intros n' [= <-] Hn. rewrite firstn_length, skipn_length. lia.
Qed.
Print Assumptions C67_read_bytes.
(** what pwrite does to them: the bytes written are there, all others are as before, a gap is zero *)
Theorem C67_write_bytes : forall c d off k n c', file_write c d off k = Ok (n, c') ->
  0 <= off /\ 0 <= n <= Z.of_nat (length d) /\
  (forall m, k = Ok m -> (length d <= m)%nat -> n = Z.of_nat (length d)) /\
  (n = 0 -> c' = c) /\
  (0 < n -> length c' = Nat.max (length c) (Z.to_nat (off + n))) /\
  forall i, (i < length c')%nat ->
    c' !! i = if decide (off <= Z.of_nat i < off + n) then d !! (i - Z.to_nat off)%nat
              else if decide (i < length c)%nat then c !! i else Some 0.
Proof.
  intros c d off k n c'. unfold file_write. destruct (Z.ltb_spec off 0); [discriminate|]. destruct k as [m|e]; [|discriminate]. intros [= <- <-].
  set (x := firstn m d). assert (Hx : length x = Nat.min m (length d)) by (unfold x; apply firstn_length).
  split; [lia|]. split; [lia|]. split; [intros m' [= <-] Hm; lia|].
  assert (Hc : x = [] \/ x <> []) by (destruct x; [left|right]; congruence).
  destruct Hc as [E|E].
  - rewrite E. cbn [length splice]. split; [reflexivity|]. split; [lia|]. intros i Hi.
    destruct (decide _); [lia|]. destruct (decide (i < length c)%nat); [reflexivity|lia].
  - assert (Hs : splice c x (Z.to_nat off) = firstn (Z.to_nat off) (c ++ replicate (Z.to_nat off - length c) 0) ++ x ++ skipn (Z.to_nat off + length x) c) by (destruct x; [contradiction|reflexivity]).
    assert (0 < length x)%nat by (destruct x; [contradiction|cbn; lia]).
    set (z := Z.to_nat off) in *. assert (Hz : off = Z.of_nat z) by lia. clearbody z. subst off.
    assert (Hp : length (firstn z (c ++ replicate (z - length c) 0)) = z) by (rewrite firstn_length, app_length, replicate_length; lia).
    rewrite Hs. split; [lia|]. split; [rewrite !app_length, Hp, skipn_length; lia|]. intros i Hi. rewrite !app_length, Hp, skipn_length in Hi.
    destruct (decide (Z.of_nat z <= Z.of_nat i < Z.of_nat z + Z.of_nat (length x))) as [Hr|Hr].
    + rewrite lookup_app_r by lia. rewrite Hp. rewrite lookup_app_l by lia. unfold x. apply lookup_take. lia.
    + destruct (Nat.lt_ge_cases i z) as [Hl|Hl].
      * rewrite lookup_app_l by lia. rewrite lookup_take by lia. destruct (decide (i < length c)%nat); [apply lookup_app_l; lia|].
        rewrite lookup_app_r by lia. apply lookup_replicate_2. lia.
      * rewrite lookup_app_r by lia. rewrite Hp. rewrite lookup_app_r by lia. rewrite lookup_drop.
        replace (z + length x + (i - z - length x))%nat with i by lia. destruct (decide (i < length c)%nat); [reflexivity|lia].
Qed.
Print Assumptions C67_write_bytes.
(** so reading back what was written gives it *)
Theorem C67_read_back : forall c d off m n c' count m', file_write c d off (Ok m) = Ok (n, c') ->
  Z.of_nat count = n -> (count <= m')%nat -> file_read c' count off (Ok m') = Ok (take count d).
Proof.
  intros c d off m n c' count m' Ew Hn Hm. destruct (C67_write_bytes _ _ _ _ _ _ Ew) as (H0 & H1 & _ & Hz & Hl & Hb).
  destruct (file_read c' count off (Ok m')) as [x|e] eqn:Er.
  2:{ unfold file_read in Er. destruct (Z.ltb_spec off 0); [lia|discriminate]. }
  destruct (C67_read_bytes _ _ _ _ _ Er) as (_ & _ & Hx & Hlen). specialize (Hlen m' eq_refl Hm). f_equal.
  assert (Hlx : length x = count) by (destruct (Z.eq_dec n 0); [lia|rewrite Hl in Hlen by lia; lia]).
  apply list_eq. intros i. destruct (Nat.lt_ge_cases i count) as [Hi|Hi].
  - rewrite Hx, lookup_take by lia. rewrite Hb by (rewrite Hl by lia; lia). destruct (decide _); [|lia]. f_equal. lia.
  - rewrite (lookup_ge_None_2 x) by lia. symmetry. apply lookup_ge_None_2. rewrite take_length. lia.
Qed.
Print Assumptions C67_read_back.
Example C67_bytes_sample : file_write [1; 2; 3] [7; 8; 9] 5 (Ok 2%nat) = Ok (2, [1; 2; 3; 0; 0; 7; 8]) /\ file_read [1; 2; 3; 0; 0; 7; 8] 4 4 (Ok 9%nat) = Ok [0; 7; 8].
Proof. split; reflexivity. Qed.

(** ** Nothing is leaked: without close(), the open descriptors are those that were open before and
    one for each object alive. *)
Record io_led (w0 w : iow) : Prop := {
  il_inj : forall o o' fd, w_objs w !! o = Some fd -> w_objs w !! o' = Some fd -> o = o';
  il_new : forall o fd, w_objs w !! o = Some fd -> 0 <= fd /\ w_fdt w0 !! fd = None;
  il_obj : forall o fd, w_objs w !! o = Some fd -> is_Some (w_fdt w !! fd);
  il_fdt : forall fd ino, w_fdt w !! fd = Some ino -> (exists o, w_objs w !! o = Some fd) \/ w_fdt w0 !! fd = Some ino;
  il_old : forall fd ino, w_fdt w0 !! fd = Some ino -> w_fdt w !! fd = Some ino }.
Lemma io_led_step w0 w p r w' : io_led w0 w -> io_legal w p -> (forall o ok, p <> IClose o ok) -> io_step w p = Done (r, w') -> io_led w0 w'.
Proof.
  intros H Hl Hn. 
  assert (Hsame : forall w', w_fdt w' = w_fdt w -> w_objs w' = w_objs w -> io_led w0 w').
  { intros w1 E1 E2. destruct H as [H1 H2 H3 H4 H5]. constructor; rewrite ?E1, ?E2; auto. }
  assert (Hat : forall fd f r w', at_fd w fd f = (r, w') -> (forall i c, w_fdt (snd (f i c)) = w_fdt w /\ w_objs (snd (f i c)) = w_objs w) -> io_led w0 w').
  { intros fd f r1 w1 E Hf. unfold at_fd in E. destruct (w_fdt w !! fd) as [ino|]; [|injection E as <- <-; exact H].
    destruct (w_files w !! ino) as [c|]; [specialize (Hf ino c)|specialize (Hf ino [])]; rewrite E in Hf; cbn in Hf; apply Hsame; tauto. }
  destruct p as [o fd ino|o count off k|o d off k|o k|o k|o ok|o ok|ino c]; cbn [io_step io_legal] in *.
  - intros [= <- <-]. destruct Hl as (Ho & Hge & Hfd). destruct H as [H1 H2 H3 H4 H5]. constructor; cbn.
    + intros o1 o2 f. rewrite !lookup_insert_Some. intros [[-> ->]|[Hn1 E1]] [[-> E2]|[Hn2 E2]]; auto.
      * destruct (H3 _ _ E2). congruence.
      * subst f. destruct (H3 _ _ E1). congruence.
      * eapply H1; eassumption.
    + intros o1 f. rewrite lookup_insert_Some. intros [[-> ->]|[Hn1 E1]]; [|eapply H2; eassumption]. split; [exact Hge|].
      destruct (w_fdt w0 !! f) as [i|] eqn:E; [rewrite (H5 _ _ E) in Hfd; discriminate|reflexivity].
    + intros o1 f. rewrite lookup_insert_Some. intros [[-> ->]|[Hn1 E1]]; [rewrite lookup_insert; eauto|]. apply lookup_insert_is_Some'. right. eapply H3; eassumption.
    + intros f i. rewrite lookup_insert_Some. intros [[-> ->]|[Hn1 E1]]; [left; exists o; apply lookup_insert|].
      destruct (H4 _ _ E1) as [[o1 Eo]|Eo]; [left; exists o1; rewrite lookup_insert_ne; [exact Eo|congruence]|right; exact Eo].
    + intros f i E. rewrite lookup_insert_ne; [apply H5; exact E|]. intros ->. rewrite (H5 _ _ E) in Hfd. discriminate.
  - destruct Hl as [fd Ho]. rewrite Ho. intros [= E]. eapply Hat; [exact E|]. intros i c. cbn. destruct (file_read _ _ _ _); auto.
  - destruct Hl as [fd Ho]. rewrite Ho. intros [= E]. eapply Hat; [exact E|]. intros i c. cbn. destruct (file_write _ _ _ _) as [[]|]; auto.
  - destruct Hl as [fd Ho]. rewrite Ho. intros [= E]. eapply Hat; [exact E|]. intros i c. cbn. destruct k; auto.
  - destruct Hl as [fd Ho]. rewrite Ho. intros [= E]. eapply Hat; [exact E|]. intros i c. cbn. destruct k; auto.
  - destruct (Hn o ok eq_refl).
  - destruct Hl as [fd Ho]. rewrite Ho. intros [= <- <-]. destruct H as [H1 H2 H3 H4 H5].
    destruct (H2 _ _ Ho) as [Hge Hnew]. rewrite (proj2 (Z.leb_le 0 fd) Hge). destruct (H3 _ _ Ho) as [ino Efd].
    assert (Hw : exists ob, snd (io_close w o fd ok) = mkW (w_files w) (delete fd (w_fdt w)) ob /\ forall x, x <> o -> ob !! x = w_objs w !! x).
    { unfold io_close, sys_close. rewrite Efd. destruct ok; cbn [fst snd]; eexists; (split; [reflexivity|]); cbn; [intros x Hx; apply lookup_insert_ne; congruence|reflexivity]. }
    destruct Hw as (ob & -> & Hob). cbn. constructor; cbn.
    + intros o1 o2 f. rewrite !lookup_delete_Some. intros [Hn1 E1] [Hn2 E2]. rewrite Hob in E1, E2 by congruence. eapply H1; eassumption.
    + intros o1 f. rewrite lookup_delete_Some. intros [Hn1 E1]. rewrite Hob in E1 by congruence. eapply H2; eassumption.
    + intros o1 f. rewrite lookup_delete_Some. intros [Hn1 E1]. rewrite Hob in E1 by congruence. rewrite lookup_delete_ne; [eapply H3; eassumption|].
      intros ->. apply Hn1. eapply H1; eassumption.
    + intros f i. rewrite lookup_delete_Some. intros [Hn1 E1]. destruct (H4 _ _ E1) as [[o1 Eo]|Eo]; [|right; exact Eo].
      left. exists o1. rewrite lookup_delete_ne, Hob by congruence. exact Eo.
    + intros f i E. rewrite lookup_delete_ne; [apply H5; exact E|]. congruence.
  - intros [= <- <-]. apply Hsame; reflexivity.
Qed.
Theorem C67_no_leak_partial : forall w ps rs w', w_objs w = ∅ -> io_legals w ps -> (forall o ok, IClose o ok ∉ ps) -> io_run w ps = Done (rs, w') ->
  (forall fd ino, w_fdt w' !! fd = Some ino -> (exists o, w_objs w' !! o = Some fd) \/ w_fdt w !! fd = Some ino) /\
  (forall fd ino, w_fdt w !! fd = Some ino -> w_fdt w' !! fd = Some ino) /\
  (forall o fd, w_objs w' !! o = Some fd -> w_fdt w !! fd = None) /\
  (forall o o' fd, w_objs w' !! o = Some fd -> w_objs w' !! o' = Some fd -> o = o').
Proof.
  intros w ps rs w' H0 Hl Hn Er.
  assert (HI : io_led w w). { constructor; rewrite ?H0; try (intros o; rewrite lookup_empty; discriminate); auto. }
  assert (HE : io_led w w').
  { clear H0. revert HI Hl Er. generalize w at 2 3 4 as v. revert rs w'. induction ps as [|p ps IH]; intros rs w' v HI Hl Er; [injection Er as <- <-; exact HI|].
    cbn [io_run] in Er. destruct Hl as [Hl1 Hl2]. destruct (io_step v p) as [[r v1]| | |] eqn:E1; cbn [obind] in Er; try contradiction; try discriminate.
    destruct (io_run v1 ps) as [[rs' v2]| | |] eqn:E2; cbn [obind] in Er; try discriminate. injection Er as <- <-.
    eapply IH; [| |exact Hl2|exact E2].
    - intros o ok Hp. apply (Hn o ok). constructor. exact Hp.
    - eapply io_led_step; [exact HI|exact Hl1| |exact E1]. intros o ok ->. apply (Hn o ok). constructor. }
  destruct HE as [H1 H2 H3 H4 H5]. split_and!; eauto. intros o fd E. eapply H2; eassumption.
Qed.
Print Assumptions C67_no_leak_partial.

(** ** What goes wrong.  Descriptors 0, 1, 2 are those of the terminal (file 10). *)
Definition tty_w : iow := mkW {[ 10 := []; 20 := []; 21 := [97; 98; 99]; 22 := []; 23 := [] ]} {[ 0 := 10; 1 := 10; 2 := 10 ]} ∅.
Definition tty_s : files_spec := mkS (w_files tty_w) ∅.
(** writing after close() goes to descriptor 0 *)
Definition late_ops : list iop := [IOpen 1 3 20; IClose 1 true; IWrite 1 [120; 121] 0 (Ok 2%nat)].
(** every object is closed once, then destroyed, and nothing is used after its close(): still what is
    written to file 21 through object 2 ends up in file 23 *)
Definition mix_ops : list iop :=
  [IOpen 1 3 20; IClose 1 true; IDestroy 1 true;      (* the destructor closes descriptor 0 *)
   IOpen 2 0 21; IOpen 3 3 22; IClose 3 true; IDestroy 3 true;   (* ... and that of object 2 *)
   IOpen 4 0 23; IWrite 2 [120; 121] 0 (Ok 2%nat)].
Definition io_legalb (w : iow) (p : iop) : bool :=
  match p with
  | IOpen o fd ino => match w_objs w !! o, w_fdt w !! fd with None, None => 0 <=? fd | _, _ => false end
  | IRead o _ _ _ | IWrite o _ _ _ | IStat o _ | ISync o _ | IClose o _ | IDestroy o _ => match w_objs w !! o with Some _ => true | None => false end
  | IElse _ _ => true
  end.
Fixpoint io_legalsb (w : iow) (ps : list iop) : bool :=
  match ps with
  | [] => true
  | p :: ps => io_legalb w p && match io_step w p with Done (_, w') => io_legalsb w' ps | _ => false end
  end.
Lemma io_legalsb_ok ps : forall w, io_legalsb w ps = true -> io_legals w ps.
Proof.
  induction ps as [|p ps IH]; intros w H; [exact I|]. cbn [io_legalsb] in H. apply andb_true_iff in H as [H1 H2]. split.
  - destruct p; cbn in *; try exact I; try (destruct (w_objs w !! o); [eauto|discriminate]). destruct (w_objs w !! o); [discriminate|]. destruct (w_fdt w !! fd); [discriminate|]. split_and!; auto. lia.
  - destruct (io_step w p) as [[r w']| | |]; try discriminate. apply IH. exact H2.
Qed.
Definition usedb (s : files_spec) (p : iop) : bool :=
  match p with
  | IRead o _ _ _ | IWrite o _ _ _ | IStat o _ | ISync o _ | IClose o _ => match s_objs s !! o with Some None => false | _ => true end
  | _ => true
  end.
Fixpoint no_use_closedb (s : files_spec) (ps : list iop) : bool :=
  match ps with [] => true | p :: ps => usedb s p && no_use_closedb (snd (spec_step s p)) ps end.
Lemma no_use_closedb_ok ps : forall s, no_use_closedb s ps = true -> no_use_closed s ps.
Proof.
  induction ps as [|p ps IH]; intros s H; [exact I|]. cbn [no_use_closedb] in H. apply andb_true_iff in H as [H1 H2]. split; [|apply IH; exact H2].
  destruct p; try exact I; cbn in H1; intros E; rewrite E in H1; discriminate.
Qed.
Lemma late_legal : io_legals tty_w late_ops.
Proof. apply io_legalsb_ok. vm_compute. reflexivity. Qed.
Lemma mix_legal : io_legals tty_w mix_ops.
Proof. apply io_legalsb_ok. vm_compute. reflexivity. Qed.
Definition reps_of (x : outcome (list irep * iow)) : list irep := match x with Done (rs, _) => rs | _ => [] end.
Definition files_of (x : outcome (list irep * iow)) : gmap Z bytes := match x with Done (_, w) => w_files w | _ => ∅ end.
Theorem C67_refuted_late : ~ C67_full.
Proof.
  intros H. destruct (H tty_w tty_s late_ops) as (rs & w' & s' & E & E1 & _); [split; reflexivity|exact late_legal|].
  apply (f_equal reps_of) in E. apply (f_equal fst) in E1. cbn [reps_of fst] in E, E1. rewrite <- E in E1. vm_compute in E1. discriminate E1.
Qed.
Print Assumptions C67_refuted_late.
Theorem C67_refuted_mixed : ~ C67_full.
Proof.
  intros H. destruct (H tty_w tty_s mix_ops) as (rs & w' & s' & E & E1 & E2); [split; reflexivity|exact mix_legal|].
  apply (f_equal snd) in E1. cbn [snd] in E1. rewrite <- E1 in E2.
  apply (f_equal files_of) in E. cbn [files_of] in E. rewrite <- E in E2. apply (f_equal (fun m : gmap Z bytes => m !! 23)) in E2. vm_compute in E2. discriminate E2.
Qed.
Print Assumptions C67_refuted_mixed.
(** the bytes: file 21 is unchanged, file 23 has them; the other two effects of the same mistake *)
Example C67_mixed_bytes : files_of (io_run tty_w mix_ops) !! 21 = Some [97; 98; 99] /\ files_of (io_run tty_w mix_ops) !! 23 = Some [120; 121] /\
  no_use_closed tty_s mix_ops /\ (forall o, IClose o false ∉ mix_ops) /\
  files_of (io_run tty_w late_ops) !! 10 = Some [120; 121] /\ files_of (io_run tty_w late_ops) !! 20 = Some [].
Proof.
  split; [vm_compute; reflexivity|]. split; [vm_compute; reflexivity|]. split; [apply no_use_closedb_ok; vm_compute; reflexivity|].
  split; [intros o Ho; apply elem_of_list_In in Ho; cbn in Ho; intuition discriminate|]. split; vm_compute; reflexivity.
Qed.

(** ** the hypotheses of the partial theorems are met by non-trivial runs *)
Definition good_ops : list iop :=
  [IOpen 1 3 20; IOpen 2 4 20; IWrite 1 [120; 121; 122] 2 (Ok 2%nat); IRead 2 10 1 (Ok 100%nat); IElse 21 [1]; IStat 2 (Ok tt);
   IDestroy 1 false; IOpen 3 3 21; IRead 3 1 0 (Ok 5%nat); IRead 2 3 (-1) (Ok 3%nat); ISync 2 (Err 5)].
Example C67_sample : io_start tty_w tty_s /\ io_legals tty_w good_ops /\ (forall o ok, IClose o ok ∉ good_ops) /\
  reps_of (io_run tty_w good_ops) = [RNone; RNone; RCount 2; RData [0; 120; 121]; RNone; RStat 4 20; RNone; RNone; RData [1]; RErr EINVAL; RErr 5].
Proof.
  split; [split; reflexivity|]. split; [apply io_legalsb_ok; vm_compute; reflexivity|].
  split; [intros o ok Ho; apply elem_of_list_In in Ho; cbn in Ho; intuition discriminate|]. vm_compute. reflexivity.
Qed.
Definition good_close_ops : list iop :=
  [IOpen 1 3 20; IOpen 2 4 21; IClose 1 true; IDestroy 1 true; IOpen 3 3 22; IWrite 3 [7] 0 (Ok 1%nat); IRead 2 2 1 (Ok 9%nat); IClose 2 true].
Example C67_sample_close : io_legals tty_w good_close_ops /\ (forall o, IClose o false ∉ good_close_ops) /\ no_use_closed tty_s good_close_ops /\
  (forall o ino, IOpen o 0 ino ∉ good_close_ops) /\
  reps_of (io_run tty_w good_close_ops) = [RNone; RNone; ROk; RNone; RNone; RCount 1; RData [98; 99]; ROk].
Proof.
  split; [apply io_legalsb_ok; vm_compute; reflexivity|].
  split; [intros o Ho; apply elem_of_list_In in Ho; cbn in Ho; intuition discriminate|]. split; [apply no_use_closedb_ok; vm_compute; reflexivity|].
  split; [intros o ino Ho; apply elem_of_list_In in Ho; cbn in Ho; intuition discriminate|]. vm_compute. reflexivity.
Qed.
