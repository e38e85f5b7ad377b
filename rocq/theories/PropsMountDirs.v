(** Property C77: the directory objects of a mount on the local backend. *)
From Verif Require Import PropsBacking LocalDir PropsLocalDir MountDirs.

(** ** Specification *)
(** no object is alive, and the open streams are those of [w0] *)
Definition at_rest (w0 w : diow) : Prop := dw_objs w = ∅ /\ dom (dw_st w) = dom (dw_st w0) /\ dw_synced w = dw_synced w0.
Definition fresh (w : diow) : Prop := dw_objs w = ∅ /\ dw_st w !! 0 = None.
Definition modest (S : os) : Prop := forall w w', os_else S w w' -> outside w w'.

(** ** Lemmas *)
Lemma streams_typed S : well_typed (streams S).
Proof. intros y c a y' [H _]. exact H. Qed.
(** one object [d] is alive, on a stream of its own *)
Definition one_open (w0 : diow) (d : Z) (w : diow) : Prop :=
  exists dp, dw_objs w = {[d := dp]} /\ dp <> 0 /\ dp ∉ dom (dw_st w0) /\ dom (dw_st w) = {[dp]} ∪ dom (dw_st w0) /\ dw_synced w = dw_synced w0.
Definition inv (w0 : diow) (h : hstate) (w : diow) : Prop :=
  match h with
  | HReaddir _ _ _ _ d | HStat _ _ _ _ d _ | HLeave d _ => one_open w0 d w
  | HDone r => survives r -> at_rest w0 w
  | _ => at_rest w0 w
  end.
Lemma outside_dom w w' : outside w w' -> dom (dw_st w') = dom (dw_st w).
Proof.
  intros (_ & _ & H). apply set_eq. intros dp. rewrite !elem_of_dom. specialize (H dp). destruct (dw_st w' !! dp), (dw_st w !! dp); cbn in H; try discriminate H; split; intros [? ?]; try discriminate; eauto.
Qed.
Lemma outside_rest w0 w w' : outside w w' -> at_rest w0 w -> at_rest w0 w'.
Proof. intros O (H1 & H2 & H3). pose proof (outside_dom _ _ O) as D. destruct O as (O1 & O2 & _). unfold at_rest. rewrite O1, O2, D. auto. Qed.
Lemma outside_open w0 d w w' : outside w w' -> one_open w0 d w -> one_open w0 d w'.
Proof. intros O (dp & H1 & H2 & H3 & H4 & H5). pose proof (outside_dom _ _ O) as D. destruct O as (O1 & O2 & _). exists dp. rewrite O1, O2, D. auto. Qed.
Lemma open_stream w0 d w : one_open w0 d w -> exists dp x, dw_objs w !! d = Some dp /\ dp <> 0 /\ dw_st w !! dp = Some x.
Proof. intros (dp & H1 & H2 & H3 & H4 & H5). assert (Hd : dp ∈ dom (dw_st w)) by (rewrite H4; set_solver). apply elem_of_dom in Hd as [x Hx]. exists dp, x. rewrite H1. split; [apply lookup_singleton|auto]. Qed.
Lemma inv_goes_on {A} w0 d (m : outcome A) k w : one_open w0 d w -> (forall a, m = Done a -> inv w0 (k a) w) -> inv w0 (goes_on d m k) w.
Proof. intros H Hk. destruct m; cbn [goes_on]; [apply Hk; reflexivity|exact H|intros N; destruct N|intros N; destruct N]. Qed.
Lemma inv_leaves w0 d r w : one_open w0 d w -> inv w0 (leaves d r) w.
Proof. intros H. destruct r; cbn [leaves]; [exact H|exact H|intros N; destruct N|intros N; destruct N]. Qed.
Lemma inv_step S w0 h w c a y' : modest S -> fresh w0 -> inv w0 h w -> wants h = Some c -> streams S (Some w) c a y' -> exists w', y' = Some w' /\ inv w0 (resume h a) w'.
Proof.
  intros HS [F1 F2] Hi Hc [Ht (w1 & He & Hm)]. pose proof (HS _ _ He) as O. destruct h as [r|s t p n pp|s t x pp|s t x pp|s t x bp d|s t x bp d n|d r]; cbn [wants] in Hc; try discriminate Hc; injection Hc as <-; cbn [inv] in Hi.
  - subst y'. exists w1. split; [reflexivity|]. pose proof (outside_rest _ _ _ O Hi) as R. destruct a; try destruct Ht; cbn [resume inv]; auto.
  - subst y'. exists w1. split; [reflexivity|]. pose proof (outside_rest _ _ _ O Hi) as R. destruct a; try destruct Ht; cbn [resume inv]; auto.
  - pose proof (outside_rest _ _ _ O Hi) as (R1 & R2 & R3). destruct (os_dir S (backend_path pp)) as [[dir l]|e].
    + destruct Hm as (o & dp & (L1 & L2 & L3) & -> & Hcall). unfold calls_dir in Hcall. cbn [dir_call] in Hcall. destruct Hcall as [_ ->]. eexists. split; [reflexivity|]. cbn [resume]. apply inv_goes_on; [|intros r _; cbn [inv]].
      all: exists dp; cbn [dw_objs dw_st dw_synced]; rewrite R1, insert_empty; split; [reflexivity|]; split; [exact L2|]; split; [rewrite <- R2; apply not_elem_of_dom; exact L3|]; split; [rewrite dom_insert_L, R2; reflexivity|exact R3].
    + destruct Hm as [-> ->]. exists w1. split; [reflexivity|]. cbn [resume inv]. intros _. split_and!; assumption.
  - pose proof (outside_open _ _ _ _ O Hi) as R. destruct (open_stream _ _ _ R) as (dp & [dir l] & Eo & Hdp & Es). destruct Hm as (k & _ & Hcall). unfold calls_dir in Hcall. cbn [dir_call] in Hcall. rewrite Eo in Hcall. unfold dir_read in Hcall. rewrite Es in Hcall.
    destruct k as [e|]; [|destruct l as [|e l]]; cbn [obind] in Hcall; destruct Hcall as [-> ->]; eexists; (split; [reflexivity|]); cbn [resume ans_of]; try (apply inv_leaves; exact R). cbn [inv].
    destruct R as (dp' & H1 & H2 & H3 & H4 & H5). assert (dp' = dp) as -> by (rewrite H1, lookup_singleton in Eo; congruence). exists dp. cbn [dw_objs dw_st dw_synced]. split_and!; try assumption. rewrite dom_insert_L, H4. set_solver.
  - subst y'. exists w1. split; [reflexivity|]. pose proof (outside_open _ _ _ _ O Hi) as R. destruct a; try destruct Ht; cbn [resume]; [apply inv_goes_on; [exact R|intros r _; exact R]|exact R].
  - pose proof (outside_open _ _ _ _ O Hi) as R. destruct (open_stream _ _ _ R) as (dp & [dir l] & Eo & Hdp & Es). destruct Hm as (ok & Hcall). unfold calls_dir in Hcall. cbn [dir_call] in Hcall. rewrite Eo in Hcall. apply Z.eqb_neq in Hdp as Hdp2. rewrite Hdp2 in Hcall. unfold dir_close in Hcall. rewrite Es in Hcall.
    destruct R as (dp' & H1 & H2 & H3 & H4 & H5). assert (dp' = dp) as -> by (rewrite H1, lookup_singleton in Eo; congruence).
    destruct ok; cbn [obind] in Hcall; destruct Hcall as [-> ->]; eexists; (split; [reflexivity|]); cbn [resume ans_of inv]; intros _; unfold at_rest; cbn [dw_objs dw_st dw_synced]; rewrite ?H1; (split; [|split; [rewrite dom_delete_L, H4; set_solver|exact H5]]).
    + rewrite insert_singleton. apply delete_singleton.
    + apply delete_singleton.
Qed.
Lemma inv_runs S w0 : modest S -> fresh w0 -> forall y h tr y' r, runs (streams S) y h tr y' r -> forall w, y = Some w -> inv w0 h w -> exists w', y' = Some w' /\ (survives r -> at_rest w0 w').
Proof.
  intros HS F y h tr y' r H. induction H as [y r|y h c a y1 tr y' r Hc Hm H IH]; intros w -> Hi; [exists w; auto|].
  destruct (inv_step S w0 h w c a y1 HS F Hi Hc Hm) as (w1 & -> & Hi1). exact (IH w1 eq_refl Hi1).
Qed.
Lemma inv_start w0 s q w : at_rest w0 w -> inv w0 (start s q) w.
Proof. intros R. destruct q as [p n|x|x|q]; cbn [start]; [| | |intros _; exact R]; match goal with |- inv _ match path ?d ?x with _ => _ end _ => destruct (path d x) as [[pp|e]| | |] end; cbn [inv]; auto; intros N; destruct N. Qed.

(** ** One request: nothing is undefined, and a request that ends leaves the streams as they were. *)
Theorem C77_request : forall S w0 w s q tr y' r, modest S -> fresh w0 -> at_rest w0 w -> serves (streams S) (Some w) s q tr y' r ->
  exists w', y' = Some w' /\ (survives r -> at_rest w0 w').
Proof. intros S w0 w s q tr y' r HS F R H. exact (inv_runs S w0 HS F _ _ _ _ _ H w eq_refl (inv_start w0 s q w R)). Qed.
Print Assumptions C77_request.
(** ** All histories: others change the directories between two requests as they like. *)
Definition between_requests (y y' : option diow) : Prop := match y with Some w => exists w', y' = Some w' /\ outside w w' | None => True end.
Theorem C77_history : forall S w0 y W s k h, modest S -> fresh w0 -> bhist (streams S) between_requests (Some w0) y W s k h ->
  exists w, y = Some w /\ at_rest w0 w.
Proof.
  intros S w0 y W s k h HS F. induction 1 as [root d r Hr E|y y' W s k h H (w & -> & R) He|y W s k h q tr y' s' o sent H (w & -> & R) L E A B Es].
  - exists w0. split; [reflexivity|]. split; [apply F|auto].
  - destruct He as (w' & -> & O). exists w'. split; [reflexivity|]. exact (outside_rest _ _ _ O R).
  - destruct (C77_request S w0 w s q tr y' _ HS F R E) as (w' & -> & R'). exists w'. split; [reflexivity|]. apply R'. exact I.
Qed.
Print Assumptions C77_history.

(** ** What a listing reads: the entries of the directory behind the path, in order, each once; all of
    them, if ::readdir does not fail and the request gets to its end. *)
Definition left_alone (S : os) (dir : Z) : Prop := forall w w' dp l, os_else S w w' -> dw_st w !! dp = Some (dir, l) -> dw_st w' !! dp = Some (dir, l).
Lemma listing_loop S w0 dir : modest S -> fresh w0 -> left_alone S dir -> forall y h tr y' r, runs (streams S) y h tr y' r ->
  forall w dp l d, y = Some w -> inv w0 h w -> dw_objs w = {[d := dp]} -> dw_st w !! dp = Some (dir, l) -> match h with HReaddir _ _ _ _ d' | HStat _ _ _ _ d' _ => d' = d | HLeave _ r0 => forall x, r0 <> Done x | HDone r0 => forall x, r0 <> Done x | _ => False end ->
  exists l1 l2, l = l1 ++ l2 /\ names_of tr = map e_name l1 /\ ((forall e, ~ os_fails S e) -> (exists x, r = Done x) -> l2 = []).
Proof.
  intros HS F HA y h tr y' r H. induction H as [y r|y h c a y1 tr y' r Hc Hm H IH]; intros w dp l d -> Hi Eo Es Hh.
  - exists [], l. split; [reflexivity|]. split; [reflexivity|]. intros _ [x ->]. destruct (Hh x eq_refl).
  - destruct (inv_step S w0 h w c a y1 HS F Hi Hc Hm) as (w1 & -> & Hi1). destruct Hm as [Ht (w2 & He & Hm)]. pose proof (HS _ _ He) as O. pose proof (HA _ _ _ _ He Es) as Es2. destruct O as (O1 & _ & _). rewrite <- O1 in Eo.
    assert (Eod : dw_objs w2 !! d = Some dp) by (rewrite Eo; apply lookup_singleton).
    destruct h as [r0|s t p n pp|s t x pp|s t x pp|s t x bp d'|s t x bp d' n|d' r0]; try contradiction; cbn [wants] in Hc; try discriminate Hc; injection Hc as <-; try subst d'.
    + destruct Hm as (k & Hk & Hcall). unfold calls_dir in Hcall. cbn [dir_call] in Hcall. rewrite Eod in Hcall. unfold dir_read in Hcall. rewrite Es2 in Hcall. destruct k as [e|]; [|destruct l as [|e l]]; cbn [obind] in Hcall; destruct Hcall as [-> E1]; injection E1 as ->; cbn [resume ans_of] in *.
      * exists [], l. split; [reflexivity|]. split; [|intros N; destruct (N e Hk)]. cbn [names_of omap map]. destruct (replied (opendir_rest s t x)) as [u| | |] eqn:Er; cbn [leaves] in H.
        -- apply (runs_leave _ _ _ _ _ _ _ (streams_typed S)) in H as [-> _]. reflexivity.
        -- apply (runs_leave _ _ _ _ _ _ _ (streams_typed S)) in H as [-> _]. reflexivity.
        -- apply runs_done in H as [-> _]. reflexivity.
        -- apply runs_done in H as [-> _]. reflexivity.
      * exists [], []. split; [reflexivity|]. split; [|auto]. cbn [names_of omap map]. destruct (replied (opendir_rest s t x)) as [u| | |] eqn:Er; cbn [leaves] in H.
        -- apply (runs_leave _ _ _ _ _ _ _ (streams_typed S)) in H as [-> _]. reflexivity.
        -- apply (runs_leave _ _ _ _ _ _ _ (streams_typed S)) in H as [-> _]. reflexivity.
        -- apply runs_done in H as [-> _]. reflexivity.
        -- apply runs_done in H as [-> _]. reflexivity.
      * edestruct (IH _ dp l d eq_refl Hi1) as (l1 & l2 & -> & E2 & E3); [exact Eo|apply lookup_insert|reflexivity|]. exists (e :: l1), l2. split; [reflexivity|]. split; [|exact E3]. change (names_of ((KReaddir d, AEntry (e_name e)) :: tr)) with (e_name e :: names_of tr). rewrite E2. reflexivity.
    + injection Hm as ->. change (names_of ((KLstat (join_path bp n), a) :: tr)) with (names_of tr). apply (IH w2 dp l d eq_refl Hi1 Eo Es2). destruct a; try destruct Ht; cbn [resume]; [|reflexivity].
      destruct (emplace t x n (from_backend_stat a)) as [u| | |]; cbn [goes_on]; [reflexivity|intros ? N; discriminate N..].
    + destruct a; try destruct Ht. cbn [resume] in H. apply runs_done in H as (-> & _ & ->). exists [], l. split; [reflexivity|]. split; [reflexivity|]. intros _ [x ->]. destruct (Hh x eq_refl).
Qed.
Theorem C77_listing : forall S w0 w s x pp dir l tr y' r, modest S -> fresh w0 -> at_rest w0 w -> left_alone S dir -> serves (streams S) (Some w) s (OOpendir x) tr y' r ->
  asked s x = Some pp -> os_dir S (backend_path pp) = Ok (dir, l) ->
  exists l1 l2, l = l1 ++ l2 /\ names_of tr = map e_name l1 /\ ((forall e, ~ os_fails S e) -> (exists z, r = Done z) -> l2 = []).
Proof.
  intros S w0 w s x pp dir l tr y' r HS F R HA H Ha Hd. unfold serves in H. cbn [start] in H. unfold asked in Ha.
  change (t_db (begin_tx (s_db s) (s_refs s))) with (s_db s) in H. destruct (path (s_db s) x) as [[pp'|e]| | |] eqn:Ep; try discriminate Ha. injection Ha as ->.
  inversion H as [|y1 h c a y2 tr1 y3 r1 Hc Hm Hr]; subst. cbn [wants] in Hc. injection Hc as <-.
  pose proof (inv_step S w0 _ w _ a y2 HS F (R : inv w0 (HOpendir s (begin_tx (s_db s) (s_refs s)) x pp) w) eq_refl Hm) as (w1 & -> & Hi1).
  destruct Hm as [Ht (w2 & He & Hm)]. rewrite Hd in Hm. destruct Hm as (o & dp & (L1 & L2 & L3) & -> & Hcall). unfold calls_dir in Hcall. cbn [dir_call] in Hcall. destruct Hcall as [_ E]. injection E as ->.
  pose proof (outside_rest _ _ _ (HS _ _ He) R) as (R1 & _ & _).
  change (names_of ((KOpendir (backend_path pp), ADir o) :: tr1)) with (names_of tr1).
  refine (listing_loop S w0 dir HS F HA _ _ _ _ _ Hr _ dp l o eq_refl Hi1 _ _ _).
  - cbn [dw_objs]. rewrite R1. apply insert_empty.
  - cbn [dw_st]. apply lookup_insert.
  - cbn [resume]. destruct (start_dir_rewrite _ x) as [u| | |]; cbn [goes_on]; [reflexivity|intros ? N; discriminate N..].
Qed.
Print Assumptions C77_listing.

(** ** The requests of the theorems exist: on an operating system where others may also do nothing,
    every request is served to some end. *)
Definition may_rest (S : os) : Prop := forall w, os_else S w w.
Lemma runs_listing S w0 : modest S -> fresh w0 -> may_rest S -> forall l w s t x bp d dp dir, one_open w0 d w -> dw_objs w = {[d := dp]} -> dw_st w !! dp = Some (dir, l) ->
  exists tr y' r, runs (streams S) (Some w) (HReaddir s t x bp d) tr y' r.
Proof.
  intros HS F HM. 
  assert (Hleave : forall w d dp dir l r, one_open w0 d w -> dw_objs w = {[d := dp]} -> dw_st w !! dp = Some (dir, l) -> exists tr y' r', runs (streams S) (Some w) (leaves d r) tr y' r').
  { intros w d dp dir l r R Eo Es. destruct R as (dp' & H1 & H2 & _). assert (dp' = dp) as -> by (rewrite H1 in Eo; apply (f_equal (fun m => m !! d)) in Eo; rewrite !lookup_singleton in Eo; congruence).
    assert (E : exists y, streams S (Some w) (KDestroyDir d) AVoid y).
    { eexists. split; [exact I|]. exists w. split; [apply HM|]. exists true. unfold calls_dir. cbn [dir_call]. rewrite H1, lookup_singleton. apply Z.eqb_neq in H2. rewrite H2. unfold dir_close. rewrite Es. cbn [obind]. split; reflexivity. }
    destruct E as [y E]. destruct r; cbn [leaves]; try (do 3 eexists; apply runs_end); (do 3 eexists; eapply runs_call; [reflexivity|exact E|apply runs_end]). }
  induction l as [|e l IH]; intros w s t x bp d dp dir R Eo Es.
  - destruct (Hleave w d dp dir [] (replied (opendir_rest s t x)) R Eo Es) as (tr & y' & r & H). exists ((KReaddir d, AFail 0) :: tr), y', r. eapply runs_call; [reflexivity| |exact H]. split; [exact I|]. exists w. split; [apply HM|]. exists None. split; [exact I|].
    unfold calls_dir. cbn [dir_call]. rewrite Eo, lookup_singleton. unfold dir_read. rewrite Es. cbn [obind]. split; reflexivity.
  - set (w1 := mkD (<[dp := (dir, l)]> (dw_st w)) (dw_objs w) (dw_synced w)).
    assert (Hm : streams S (Some w) (KReaddir d) (AEntry (e_name e)) (Some w1)).
    { split; [exact I|]. exists w. split; [apply HM|]. exists None. split; [exact I|]. unfold calls_dir. cbn [dir_call]. rewrite Eo, lookup_singleton. unfold dir_read. rewrite Es. cbn [obind]. split; reflexivity. }
    destruct (inv_step S w0 (HReaddir s t x bp d) w (KReaddir d) (AEntry (e_name e)) (Some w1) HS F R eq_refl Hm) as (w2 & E2 & R1). injection E2 as <-. cbn [resume inv] in R1.
    destruct (IH w1 s t x bp d dp dir R1 Eo (lookup_insert _ _ _)) as (tr & y' & r & H). exists ((KReaddir d, AEntry (e_name e)) :: (KLstat (join_path bp (e_name e)), AFail ENOENT) :: tr), y', r.
    eapply runs_call; [reflexivity|exact Hm|]. eapply runs_call; [reflexivity| |exact H]. split; [exact I|]. exists w1. split; [apply HM|reflexivity].
Qed.
Theorem C77_served : forall S w0 w s q, modest S -> fresh w0 -> may_rest S -> at_rest w0 w -> exists tr y' r, serves (streams S) (Some w) s q tr y' r.
Proof.
  intros S w0 w s q HS F HM R. unfold serves. destruct q as [p n|x|x|q]; cbn [start]; [| | |do 3 eexists; apply runs_end]; match goal with |- context [match path ?d ?x with _ => _ end] => destruct (path d x) as [[pp|e]| | |] end; try (do 3 eexists; apply runs_end).
  - do 3 eexists. eapply runs_call with (a := AFail ENOENT); [reflexivity| |apply runs_end]. split; [exact I|]. exists w. split; [apply HM|reflexivity].
  - do 3 eexists. eapply runs_call with (a := AFail ENOENT); [reflexivity| |apply runs_end]. split; [exact I|]. exists w. split; [apply HM|reflexivity].
  - set (h := HOpendir _ _ _ _). destruct (os_dir S (backend_path pp)) as [[dir l]|e] eqn:Ed.
    + destruct (exist_fresh ({[0]} ∪ dom (dw_st w))) as [dp Hdp]. apply not_elem_of_union in Hdp as [Hd0 Hdp]. apply not_elem_of_singleton in Hd0. apply not_elem_of_dom in Hdp.
      set (w1 := mkD (<[dp := (dir, l)]> (dw_st w)) (<[7 := dp]> (dw_objs w)) (dw_synced w)).
      assert (Hm : streams S (Some w) (KOpendir (backend_path pp)) (ADir 7) (Some w1)).
      { split; [exact I|]. exists w. split; [apply HM|]. rewrite Ed. exists 7, dp. split; [split; [|split; [exact Hd0|exact Hdp]]|split; [reflexivity|split; reflexivity]]. destruct R as (-> & _). apply lookup_empty. }
      destruct (inv_step S w0 h w _ _ _ HS F (R : inv w0 h w) eq_refl Hm) as (w2 & E2 & Hi). injection E2 as <-.
      assert (Eo : dw_objs w1 = {[7 := dp]}) by (cbn [w1 dw_objs]; destruct R as (-> & _); apply insert_empty).
      assert (Es : dw_st w1 !! dp = Some (dir, l)) by apply lookup_insert.
      assert (Hn : exists tr y' r, runs (streams S) (Some w1) (resume h (ADir 7)) tr y' r).
      { cbn [resume h] in Hi |- *. destruct (start_dir_rewrite _ x) as [u| | |]; cbn [goes_on] in Hi |- *; try (do 3 eexists; apply runs_end).
        - exact (runs_listing S w0 HS F HM l w1 _ _ _ _ 7 dp dir Hi Eo Es).
        - destruct Hi as (dp' & H1 & H2 & _). assert (dp' = dp) as -> by (rewrite H1 in Eo; apply (f_equal (fun m => m !! 7)) in Eo; rewrite !lookup_singleton in Eo; congruence).
          do 3 eexists. eapply runs_call with (a := AVoid); [reflexivity| |apply runs_end]. split; [exact I|]. exists w1. split; [apply HM|]. exists true. unfold calls_dir. cbn [dir_call]. rewrite H1, lookup_singleton. apply Z.eqb_neq in H2. rewrite H2. unfold dir_close. rewrite Es. cbn [obind]. split; reflexivity. }
      destruct Hn as (tr & y' & r & H). do 3 eexists. eapply runs_call; [reflexivity|exact Hm|exact H].
    + do 3 eexists. eapply runs_call with (a := AFail e); [reflexivity| |apply runs_end]. split; [exact I|]. exists w. split; [apply HM|]. rewrite Ed. split; reflexivity.
Qed.
Print Assumptions C77_served.

(** ** Sample: /d is looked up, then listed; its directory has two entries, /d/h is gone before it can
    be looked at.  Somebody else's stream (number 5) is open all the time. *)
Definition os77 : os := Os (fun p => if bool_decide (p = pD) then Ok (9, [Dent nF DT_REG 11; Dent [104] DT_REG 12]) else if bool_decide (p = [47]) then Ok (2, [Dent nD DT_DIR 9]) else Err ENOENT) eq (fun _ => False).
Definition w77 : diow := mkD {[5 := (1, [])]} ∅ [].
Definition lstat77 (p : bytes) : bans := if bool_decide (p = pDF) then AStat (fileA 20) else if bool_decide (p = pD) then AStat dirA else AFail ENOENT.
Fixpoint dplay (fuel : nat) (w : diow) (h : hstate) : option (trace * diow * result) :=
  match fuel with
  | O => None
  | S fuel =>
    let go (c : bcall) (a : bans) (w1 : diow) := match dplay fuel w1 (resume h a) with Some (tr, w', r) => Some ((c, a) :: tr, w', r) | None => None end in
    match wants h with
    | None => match h with HDone r => Some ([], w, r) | _ => None end
    | Some (KLstat p) => go (KLstat p) (lstat77 p) w
    | Some (KOpendir p) =>
      match os_dir os77 p with
      | Ok (dir, l) =>
        if bool_decide (dir_legal w (DOpen 3 8 dir l)) then match dir_call w (DOpen 3 8 dir l) with Done (_, w1) => go (KOpendir p) (ADir 3) w1 | _ => None end else None
      | Err e => go (KOpendir p) (AFail e) w
      end
    | Some (KReaddir o) => match dir_call w (DRead o None) with Done (DEnt m i n b, w1) => go (KReaddir o) (AEntry n) w1 | Done (DErr e, w1) => go (KReaddir o) (AFail e) w1 | _ => None end
    | Some (KDestroyDir o) => match dir_call w (DDestroy o true) with Done (r, w1) => match r with DNone | DOk => go (KDestroyDir o) AVoid w1 | _ => None end | _ => None end
    | Some _ => None
    end
  end.
Lemma dplay_ok fuel : forall w h tr w' r, dplay fuel w h = Some (tr, w', r) -> runs (streams os77) (Some w) h tr (Some w') r.
Proof.
  induction fuel as [|fuel IH]; intros w h tr w' r E; cbn [dplay] in E; [discriminate|].
  assert (Hgo : forall c a w1, wants h = Some c -> streams os77 (Some w) c a (Some w1) -> match dplay fuel w1 (resume h a) with Some (tr, w', r) => Some ((c, a) :: tr, w', r) | None => None end = Some (tr, w', r) -> runs (streams os77) (Some w) h tr (Some w') r).
  { intros c a w1 Hw Hs Eg. destruct (dplay fuel w1 (resume h a)) as [[[tr1 w2] r1]|] eqn:Ep; [|discriminate]. injection Eg as <- <- <-. econstructor; [exact Hw|exact Hs|apply IH; exact Ep]. }
  destruct (wants h) as [[p|p|p|o|o|o|o|p a m|f|f c o|f d o|f|f|f]|] eqn:Ew; try discriminate E.
  - refine (Hgo _ _ _ eq_refl _ E). split; [unfold lstat77; repeat case_bool_decide; exact I|]. exists w. split; reflexivity.
  - destruct (os_dir os77 p) as [[dir l]|e] eqn:Ed.
    + case_bool_decide as Hl; [|discriminate]. cbn [dir_call] in E. refine (Hgo _ _ _ eq_refl _ E). split; [exact I|]. exists w. split; [reflexivity|]. rewrite Ed. exists 3, 8. split; [exact Hl|]. split; [reflexivity|]. split; reflexivity.
    + refine (Hgo _ _ _ eq_refl _ E). split; [exact I|]. exists w. split; [reflexivity|]. rewrite Ed. split; reflexivity.
  - destruct (dir_call w (DRead o None)) as [[[|m i n b| |e] w1]| | |] eqn:Ec; try discriminate E; (refine (Hgo _ _ _ eq_refl _ E); split; [exact I|]; exists w; split; [reflexivity|]; exists None; split; [exact I|]; unfold calls_dir; rewrite Ec; split; reflexivity).
  - destruct (dir_call w (DDestroy o true)) as [[[|m i n b| |e] w1]| | |] eqn:Ec; try discriminate E; (refine (Hgo _ _ _ eq_refl _ E); split; [exact I|]; exists w; split; [reflexivity|]; exists true; unfold calls_dir; rewrite Ec; split; reflexivity).
  - destruct h; try discriminate. injection E as <- <- <-. constructor.
Qed.
Definition read77 (s : fstate) (q : oreq) (cs : list bcall) (ns : list bytes) : bool :=
  match dplay 30 w77 (start s q) with
  | Some (tr, w', Done (_, o)) => bool_decide (map fst tr = cs) && bool_decide (names_of tr = ns) && match sent_of o with ([ROpen], false) => true | _ => false end
  | _ => false
  end.
Lemma read77_ok s q cs ns : read77 s q cs ns = true -> exists tr w' s' o, serves (streams os77) (Some w77) s q tr (Some w') (Done (s', o)) /\ map fst tr = cs /\ names_of tr = ns /\ sent_of o = ([ROpen], false).
Proof.
  unfold read77. destruct (dplay 30 w77 (start s q)) as [[[tr w'] [[s' o]| | |]]|] eqn:E; try discriminate. intros H. apply andb_prop in H as [H H3]. apply andb_prop in H as [H1 H2]. apply bool_decide_eq_true_1 in H1, H2. exists tr, w', s', o. split; [exact (dplay_ok _ _ _ _ _ _ E)|]. split; [exact H1|]. split; [exact H2|].
  destruct (sent_of o) as [[|[] [|? ?]] []]; try discriminate H3. reflexivity.
Qed.
Example C77_sample : modest os77 /\ may_rest os77 /\ left_alone os77 9 /\ (forall e, ~ os_fails os77 e) /\ fresh w77 /\ at_rest w77 w77 /\ asked (sS qs72) 2 = Some pD /\ os_dir os77 (backend_path pD) = Ok (9, [Dent nF DT_REG 11; Dent [104] DT_REG 12]) /\
  exists tr w' s' o, serves (streams os77) (Some w77) (sS qs72) (OOpendir 2) tr (Some w') (Done (s', o)) /\
    map fst tr = [KOpendir pD; KReaddir 3; KLstat pDF; KReaddir 3; KLstat (pD ++ [47; 104]); KReaddir 3; KDestroyDir 3] /\ names_of tr = [nF; [104]] /\ sent_of o = ([ROpen], false).
Proof.
  split; [intros w w' <-; split_and!; reflexivity|]. split; [intros w; reflexivity|]. split; [intros w w' dp l <- H; exact H|]. split; [intros e []|]. split; [split; reflexivity|]. split; [split_and!; reflexivity|].
  split; [apply (bool_decide_eq_true_1 _); vm_compute; reflexivity|]. split; [reflexivity|]. apply read77_ok. vm_compute. reflexivity.
Qed.
(** ... and a history: the root is listed. *)
Lemma dplay_answers fuel : forall w h tr w' r, dplay fuel w h = Some (tr, w', r) -> answers_ok tr.
Proof.
  induction fuel as [|fuel IH]; intros w h tr w' r E; cbn [dplay] in E; [discriminate|].
  assert (Hgo : forall c a w1, match a with AStat a => attrs_ok a | ALink l => False | _ => True end -> match dplay fuel w1 (resume h a) with Some (tr, w', r) => Some ((c, a) :: tr, w', r) | None => None end = Some (tr, w', r) -> answers_ok tr).
  { intros c a w1 Ha Eg. destruct (dplay fuel w1 (resume h a)) as [[[tr1 w2] r1]|] eqn:Ep; [|discriminate]. injection Eg as <- <- <-. constructor; [cbn; destruct a; auto; destruct Ha|exact (IH _ _ _ _ _ Ep)]. }
  destruct (wants h) as [[p|p|p|o|o|o|o|p a m|f|f c o|f d o|f|f|f]|] eqn:Ew; try discriminate E.
  - refine (Hgo _ _ _ _ E). unfold lstat77. case_bool_decide; [apply fileA_ok; split; [discriminate|reflexivity]|]. case_bool_decide; [exact dirA_ok|exact I].
  - destruct (os_dir os77 p) as [[dir l]|e] eqn:Ed; [|exact (Hgo _ (AFail e) _ I E)].
    case_bool_decide as Hl; [|discriminate]. cbn [dir_call] in E. exact (Hgo _ (ADir 3) _ I E).
  - destruct (dir_call w (DRead o None)) as [[[|m i n b| |e] w1]| | |] eqn:Ec; try discriminate E; [exact (Hgo _ (AEntry n) _ I E)|exact (Hgo _ (AFail e) _ I E)].
  - destruct (dir_call w (DDestroy o true)) as [[[|m i n b| |e] w1]| | |] eqn:Ec; try discriminate E; exact (Hgo _ AVoid _ I E).
  - destruct h; try discriminate. injection E as <- <- <-. constructor.
Qed.
Definition root77 (s : fstate) : bool :=
  match dplay 30 w77 (start s (OOpendir 1)) with
  | Some (tr, w', Done (_, o)) => bool_decide (names_of tr = [nD]) && match sent_of o with ([ROpen], false) => true | _ => false end
  | _ => false
  end.
Lemma root77_ok s0 : root77 s0 = true -> bhist (streams os77) between_requests (Some w77) (Some w77) 0 s0 k0 [] ->
  exists y W s k tr, bhist (streams os77) between_requests (Some w77) y W s k [BEv (OOpendir 1) tr [ROpen]] /\ names_of tr = [nD].
Proof.
  unfold root77. intros H H0.
  destruct (dplay 30 w77 (start s0 (OOpendir 1))) as [[[tr w'] [[s' o]| | |]]|] eqn:E; try discriminate H.
  apply andb_prop in H as [H1 H4]. apply bool_decide_eq_true_1 in H1. pose proof (dplay_answers _ _ _ _ _ _ E) as Ha. apply dplay_ok in E.
  assert (Es : sent_of o = ([ROpen], false)). { destruct (sent_of o) as [[|[] [|? ?]] []]; try discriminate H4. reflexivity. }
  assert (Hl : olegal k0 s0 (OOpendir 1)) by (apply kdirb_ok; vm_compute; reflexivity).
  assert (Hc : 0 + cost s0 (OOpendir 1) tr + 3 < 2 ^ 63) by (cbn [cost]; rewrite H1; reflexivity).
  exists (Some w'), (0 + cost s0 (OOpendir 1) tr), s', (kstep k0 (with_backend (OOpendir 1) silent) [ROpen]), tr. split; [|exact H1]. exact (bh_step _ _ _ _ _ _ _ _ (OOpendir 1) tr (Some w') s' o [ROpen] H0 Hl E Ha Hc Es).
Qed.
Example C77_history_sample : exists y W s k tr, bhist (streams os77) between_requests (Some w77) y W s k [BEv (OOpendir 1) tr [ROpen]] /\ names_of tr = [nD].
Proof.
  apply (root77_ok s_start); [vm_compute; reflexivity|].
  unfold s_start. destruct (open_cache rootA db_empty) as [[d r]| | |] eqn:Eo; [|exfalso; vm_compute in Eo; discriminate Eo..]. econstructor; [exact rootA_ok|exact Eo].
Qed.
