(** Property C79: concurrent requests and the directory objects of the local backend. *)
From Verif Require Import PropsBacking.
From Verif Require Import PropsConc ConcCalls PropsConcCalls.
From Verif Require Import LocalDir PropsLocalDir MountDirs PropsMountDirs.

(** ** The directory object a program holds *)
Inductive holding (d : Z) : bprog -> Prop :=
| us_read k : (forall x, holding d (k x)) -> holding d (BRead k)
| us_op o k : (forall x, holding d (k x)) -> holding d (BOp o k)
| us_commit k : holding d (BCommit k (Some d))
| us_fault : holding d BFault
| us_lstat p k : (forall a, holding d (k a)) -> holding d (BCall (KLstat p) k)
| us_list x bp k : holding d k -> holding d (BList d x bp k).
Inductive idle : bprog -> Prop :=
| id_read k : (forall x, idle (k x)) -> idle (BRead k)
| id_op o k : (forall x, idle (k x)) -> idle (BOp o k)
| id_commit k : idle (BCommit k None)
| id_drop l : idle (BDrop l)
| id_fault : idle BFault
| id_lstat p k : (forall a, idle (k a)) -> idle (BCall (KLstat p) k)
| id_readlink p k : (forall a, idle (k a)) -> idle (BCall (KReadlink p) k)
| id_opendir p k : (forall d, holding d (k (ADir d))) -> (forall e, idle (k (AFail e))) -> idle (BCall (KOpendir p) k).
Lemma idle_emb p : idle (emb p).
Proof. induction p; cbn [emb]; constructor; auto. Qed.
Lemma idle_path x k : (forall pp, idle (k pp)) -> idle (at_path x k).
Proof. intros H. constructor. intros d. destruct (path d x) as [[pp|e]| | |]; try constructor. apply H. Qed.
Lemma idle_code q wr p : bcode q = inl (wr, p) -> idle p.
Proof.
  destruct q as [p0 n|x|x|q]; cbn [bcode]; intros E.
  - injection E as _ <-. apply idle_path. intros pp. constructor. intros a. destruct a; try apply idle_emb; constructor.
  - injection E as _ <-. apply idle_path. intros pp. constructor. intros a. destruct a; try apply idle_emb; constructor.
  - injection E as _ <-. apply idle_path. intros pp. apply id_opendir.
    + intros d. constructor. intros r. constructor. unfold h_opendir_end. repeat constructor.
    + intros e. cbv beta iota. destruct (e =? ENOTCONN); constructor.
  - destruct (code q) as [[wr' p']|]; [|discriminate]. injection E as _ <-. apply idle_emb.
Qed.
Definition lives (t : bthread) (od : option Z) : Prop :=
  match t with
  | BWait _ | BTDrop1 _ | BTDrop2 _ => od = None
  | BRun _ _ _ _ _ p => match od with Some d => holding d p | None => idle p end
  | BTUnlock _ o | BTReply _ o => o = od
  | BTClose d => od = Some d
  end.
(** [L]: the object and the stream of each thread *)
Record objs_ok (w0 : diow) (L : gmap Z (Z * Z)) (w : diow) : Prop := MkOk {
  ok_objs : forall o dp, dw_objs w !! o = Some dp <-> exists i, L !! i = Some (o, dp);
  ok_own : forall i j o dp o' dp', L !! i = Some (o, dp) -> L !! j = Some (o', dp') -> o = o' \/ dp = dp' -> i = j;
  ok_st : forall dp, is_Some (dw_st w !! dp) <-> is_Some (dw_st w0 !! dp) \/ exists i o, L !! i = Some (o, dp);
  ok_new : forall i o dp, L !! i = Some (o, dp) -> dp <> 0 /\ dw_st w0 !! dp = None;
  ok_synced : dw_synced w = dw_synced w0 }.
Lemma ok_outside w0 L w w' : objs_ok w0 L w -> outside w w' -> objs_ok w0 L w'.
Proof.
  intros [H1 H2 H3 H4 H5] (O1 & O2 & O3). split; rewrite ?O1, ?O2; auto. intros dp. rewrite <- H3. specialize (O3 dp). destruct (dw_st w' !! dp), (dw_st w !! dp); cbn in O3; try discriminate O3; split; intros [? ?]; try discriminate; eauto.
Qed.
Lemma ok_read w0 L w dp x : objs_ok w0 L w -> is_Some (dw_st w !! dp) -> objs_ok w0 L (mkD (<[dp := x]> (dw_st w)) (dw_objs w) (dw_synced w)).
Proof.
  intros [H1 H2 H3 H4 H5] Hs. split; cbn [dw_st dw_objs dw_synced]; auto. intros dp'. rewrite <- H3. destruct (decide (dp = dp')) as [<-|Hd]; [rewrite lookup_insert; split; eauto|rewrite lookup_insert_ne by exact Hd; reflexivity].
Qed.
Lemma ok_open w0 L w i o dp x : objs_ok w0 L w -> L !! i = None -> dw_objs w !! o = None -> dp <> 0 -> dw_st w !! dp = None ->
  objs_ok w0 (<[i := (o, dp)]> L) (mkD (<[dp := x]> (dw_st w)) (<[o := dp]> (dw_objs w)) (dw_synced w)).
Proof.
  intros [H1 H2 H3 H4 H5] Li Lo Hdp Ls.
  assert (Hno : forall j dp', L !! j = Some (o, dp') -> False). { intros j dp' E. assert (E1 : dw_objs w !! o = Some dp') by (apply H1; eauto). congruence. }
  assert (Hnd : forall j o', L !! j = Some (o', dp) -> False). { intros j o' E. assert (E1 : is_Some (dw_st w !! dp)) by (apply H3; right; eauto). rewrite Ls in E1. destruct E1; discriminate. }
  split; cbn [dw_st dw_objs dw_synced]; auto.
  - intros o' dp'. split.
    + destruct (decide (o = o')) as [<-|Ho]; [rewrite lookup_insert; intros E; injection E as <-; exists i; apply lookup_insert|]. rewrite lookup_insert_ne by exact Ho. intros E. apply H1 in E as [j Ej]. exists j. rewrite lookup_insert_ne by congruence. exact Ej.
    + intros [j Ej]. destruct (decide (i = j)) as [<-|Hj]; [rewrite lookup_insert in Ej; injection Ej as <- <-; apply lookup_insert|]. rewrite lookup_insert_ne in Ej by exact Hj. rewrite lookup_insert_ne by (intros ->; eapply Hno; exact Ej). apply H1. eauto.
  - intros i1 i2 o1 dp1 o2 dp2 E1 E2 Hor. destruct (decide (i = i1)) as [<-|Hi1], (decide (i = i2)) as [<-|Hi2]; [reflexivity| | |].
    + rewrite lookup_insert in E1. rewrite lookup_insert_ne in E2 by exact Hi2. injection E1 as <- <-. destruct Hor as [<-|<-]; [destruct (Hno _ _ E2)|destruct (Hnd _ _ E2)].
    + rewrite lookup_insert in E2. rewrite lookup_insert_ne in E1 by exact Hi1. injection E2 as <- <-. destruct Hor as [->| ->]; [destruct (Hno _ _ E1)|destruct (Hnd _ _ E1)].
    + rewrite lookup_insert_ne in E1 by exact Hi1. rewrite lookup_insert_ne in E2 by exact Hi2. eapply H2; eassumption.
  - intros dp'. destruct (decide (dp = dp')) as [<-|Hd].
    + rewrite lookup_insert. split; [intros _; right; exists i, o; apply lookup_insert|eauto].
    + rewrite lookup_insert_ne by exact Hd. rewrite H3. split; (intros [H|(j & o' & Ej)]; [left; exact H|right]).
      * exists j, o'. rewrite lookup_insert_ne by congruence. exact Ej.
      * destruct (decide (i = j)) as [<-|Hj]; [rewrite lookup_insert in Ej; congruence|]. rewrite lookup_insert_ne in Ej by exact Hj. eauto.
  - intros j o' dp' E. destruct (decide (i = j)) as [<-|Hj]; [|rewrite lookup_insert_ne in E by exact Hj; eauto]. rewrite lookup_insert in E. injection E as <- <-. split; [exact Hdp|]. destruct (dw_st w0 !! dp) eqn:E0; [|reflexivity]. assert (E1 : is_Some (dw_st w !! dp)) by (apply H3; left; rewrite E0; eauto). rewrite Ls in E1. destruct E1; discriminate.
Qed.
Lemma ok_close w0 L w i o dp : objs_ok w0 L w -> L !! i = Some (o, dp) -> objs_ok w0 (delete i L) (mkD (delete dp (dw_st w)) (delete o (dw_objs w)) (dw_synced w)).
Proof.
  intros [H1 H2 H3 H4 H5] Li. split; cbn [dw_st dw_objs dw_synced]; auto.
  - intros o' dp'. destruct (decide (o = o')) as [<-|Ho].
    + rewrite lookup_delete. split; [discriminate|]. intros [j Ej]. destruct (decide (i = j)) as [<-|Hj]; [rewrite lookup_delete in Ej; discriminate|]. rewrite lookup_delete_ne in Ej by exact Hj. destruct Hj. eapply H2; eauto.
    + rewrite lookup_delete_ne by exact Ho. rewrite H1. split; intros [j Ej]; exists j; (destruct (decide (i = j)) as [<-|Hj]; [rewrite ?lookup_delete in *; congruence|rewrite lookup_delete_ne in * by exact Hj; exact Ej]).
  - intros i1 i2 o1 dp1 o2 dp2 E1 E2. apply lookup_delete_Some in E1 as [_ E1], E2 as [_ E2]. eapply H2; eassumption.
  - intros dp'. destruct (decide (dp = dp')) as [<-|Hd].
    + rewrite lookup_delete. destruct (H4 _ _ _ Li) as [_ E0]. split; [intros [? E]; discriminate|]. intros [[? E]|(j & o' & E)]; [congruence|]. apply lookup_delete_Some in E as [Hj E]. destruct Hj. eapply H2; eauto.
    + rewrite lookup_delete_ne by exact Hd. rewrite H3. split; (intros [H|(j & o' & Ej)]; [left; exact H|right; exists j, o']).
      * destruct (decide (i = j)) as [<-|Hj]; [congruence|rewrite lookup_delete_ne by exact Hj; exact Ej].
      * apply lookup_delete_Some in Ej as [_ Ej]. exact Ej.
  - intros j o' dp' E. apply lookup_delete_Some in E as [_ E]. eauto.
Qed.

(** ** The invariant *)
Definition thr (L : gmap Z (Z * Z)) (th : gmap Z bthread) : Prop := forall i, match th !! i with Some t => lives t (fst <$> L !! i) | None => L !! i = None end.
Definition dinv (w0 : diow) (w : bworld (option diow)) : Prop := exists dw L, b_y w = Some dw /\ objs_ok w0 L dw /\ thr L (b_th w).
Lemma thr_upd L th i t : thr L th -> lives t (fst <$> L !! i) -> thr L (<[i := t]> th).
Proof. intros H Ht j. destruct (decide (i = j)) as [<-|Hj]; [rewrite lookup_insert; exact Ht|rewrite lookup_insert_ne by exact Hj; apply H]. Qed.
Lemma thr_new L th i t o dp : thr L th -> lives t (Some o) -> thr (<[i := (o, dp)]> L) (<[i := t]> th).
Proof. intros H Ht j. destruct (decide (i = j)) as [<-|Hj]; [rewrite !lookup_insert; exact Ht|rewrite !lookup_insert_ne by exact Hj; apply H]. Qed.
Lemma thr_del L th i : thr L th -> L !! i = None -> thr L (delete i th).
Proof. intros H Ht j. destruct (decide (i = j)) as [<-|Hj]; [rewrite lookup_delete; exact Ht|rewrite lookup_delete_ne by exact Hj; apply H]. Qed.
Lemma thr_close L th i : thr L th -> thr (delete i L) (delete i th).
Proof. intros H j. destruct (decide (i = j)) as [<-|Hj]; [rewrite !lookup_delete; reflexivity|rewrite !lookup_delete_ne by exact Hj; apply H]. Qed.
Lemma thr_at L th i t : thr L th -> th !! i = Some t -> lives t (fst <$> L !! i).
Proof. intros H E. specialize (H i). rewrite E in H. exact H. Qed.
(** destroying a living object *)
Lemma destroyed w0 L w i o dp ok a y' : objs_ok w0 L w -> L !! i = Some (o, dp) -> calls_dir w (DDestroy o ok) a y' -> exists w', y' = Some w' /\ objs_ok w0 (delete i L) w'.
Proof.
  intros HO Li Hc. pose proof (ok_close _ _ _ _ _ _ HO Li) as HC. destruct HO as [H1 H2 H3 H4 H5]. assert (Eo : dw_objs w !! o = Some dp) by (apply H1; eauto). assert (Es : is_Some (dw_st w !! dp)) by (apply H3; right; eauto). destruct Es as [[dir l] Es]. destruct (H4 _ _ _ Li) as [Hdp _].
  unfold calls_dir in Hc. cbn [dir_call] in Hc. rewrite Eo in Hc. apply Z.eqb_neq in Hdp. rewrite Hdp in Hc. unfold dir_close in Hc. rewrite Es in Hc.
  destruct ok; cbn [obind] in Hc; destruct Hc as [_ ->]; eexists; (split; [reflexivity|]); cbn [dw_st dw_objs dw_synced]; [rewrite delete_insert_delete|]; exact HC.
Qed.
Ltac keep := match goal with Ey : _ = Some ?dw, HO : objs_ok _ ?LL ?dw, HT : thr ?LL _ |- _ => exists dw, LL; split; [exact Ey|]; split; [exact HO|]; apply thr_upd; [exact HT|]; cbn [lives] end.
Lemma dinv_step S w0 w l w1 : modest S -> bstep (streams S) between_requests w l w1 -> (forall root, l <> XKill root) -> dinv w0 w -> dinv w0 w1.
Proof.
  intros HS Hs Hl (dw & L & Ey & HO & HT). destruct Hs; cbn [b_y b_th] in *;
    try (match goal with H1 : ?mm !! ?i = Some ?t |- _ => pose proof (thr_at _ _ _ _ HT H1) as Hv; cbn [lives] in Hv end);
    try (exists dw, L; split; [exact Ey|]; split; [exact HO|]; apply thr_upd; [exact HT|]; cbn [lives]; first [exact Hv|symmetry; exact Hv]; fail).
  all: try (match goal with Hv : match fst <$> ?LL !! ?i with _ => _ end |- _ => destruct (LL !! i) as [[o0 dp0]|] eqn:Li; cbn [fmap option_fmap option_map fst] in Hv end).
  all: cbn [b_y b_th] in *.
  - (* call *) keep. specialize (HT i). rewrite H in HT. rewrite HT. reflexivity.
  - keep. rewrite Hv. eapply idle_code; eassumption.
  - keep. rewrite Hv. eapply idle_code; eassumption.
  - keep. rewrite Li. cbn. inversion Hv; auto.
  - keep. rewrite Li. cbn. inversion Hv; auto.
  - keep. rewrite Li. cbn. inversion Hv; auto.
  - keep. rewrite Li. cbn. inversion Hv; auto.
  - keep. rewrite Li. cbn. inversion Hv; auto.
  - keep. rewrite Li. cbn. inversion Hv; auto.
  - (* a call with an object alive *) rewrite Ey in H1. destruct H1 as [Ht (w2 & He & Hm)]. pose proof (ok_outside _ _ _ _ HO (HS _ _ He)) as HO2.
    inversion Hv; subst; cbn [about_to] in H0; try discriminate H0; injection H0 as <- <-.
    + subst y'. exists w2, L. split; [reflexivity|]. split; [exact HO2|]. apply thr_upd; [exact HT|]. cbn [lives]. rewrite Li. cbn. auto.
    + destruct Hm as (kk & _ & Hc). unfold calls_dir in Hc. cbn [dir_call] in Hc. rewrite (proj2 (ok_objs _ _ _ HO2 o0 dp0)) in Hc by eauto. unfold dir_read in Hc.
      assert (Es : is_Some (dw_st w2 !! dp0)) by (apply (ok_st _ _ _ HO2); right; eauto). destruct Es as [[dir l] Es]. rewrite Es in Hc.
      destruct kk as [e|]; [|destruct l as [|e l]]; cbn [obind] in Hc; destruct Hc as [-> ->]; cbn [ans_of].
      * exists w2, L. split; [reflexivity|]. split; [exact HO2|]. apply thr_upd; [exact HT|]. cbn [lives]. rewrite Li. assumption.
      * eexists _, L. split; [reflexivity|]. split; [first [exact HO2|apply ok_read; [exact HO2|rewrite Es; eauto]]|]. apply thr_upd; [exact HT|]. cbn [lives]. rewrite Li. assumption.
      * eexists _, L. split; [reflexivity|]. split; [apply ok_read; [exact HO2|rewrite Es; eauto]|]. apply thr_upd; [exact HT|]. cbn [lives]. rewrite Li. cbn.
        constructor. intros a0. destruct a0; try exact Hv. constructor. intros _. exact Hv.
  - (* a call without *) rewrite Ey in H1. destruct H1 as [Ht (w2 & He & Hm)]. pose proof (ok_outside _ _ _ _ HO (HS _ _ He)) as HO2.
    inversion Hv; subst; cbn [about_to] in H0; try discriminate H0; injection H0 as <- <-.
    + subst y'. exists w2, L. split; [reflexivity|]. split; [exact HO2|]. apply thr_upd; [exact HT|]. cbn [lives]. rewrite Li. cbn. auto.
    + subst y'. exists w2, L. split; [reflexivity|]. split; [exact HO2|]. apply thr_upd; [exact HT|]. cbn [lives]. rewrite Li. cbn. auto.
    + destruct (os_dir S p0) as [[dir l]|e].
      * destruct Hm as (o & dp & (L1 & L2 & L3) & -> & Hc). unfold calls_dir in Hc. cbn [dir_call] in Hc. destruct Hc as [_ ->]. eexists _, (<[i := (o, dp)]> L). split; [reflexivity|]. split; [apply ok_open; assumption|]. apply thr_new; [exact HT|]. cbn [lives]. auto.
      * destruct Hm as [-> ->]. exists w2, L. split; [reflexivity|]. split; [exact HO2|]. apply thr_upd; [exact HT|]. cbn [lives]. rewrite Li. cbn. auto.
  - keep. rewrite Li. cbn. inversion Hv; reflexivity.
  - keep. rewrite Li. cbn. inversion Hv; reflexivity.
  - keep. rewrite Li. cbn. inversion Hv; reflexivity.
  - keep. rewrite Li. cbn. inversion Hv; reflexivity.
  - (* reply *) destruct od as [d|]; [keep; symmetry; exact Hv|]. exists dw, L. split; [exact Ey|]. split; [exact HO|]. apply thr_del; [exact HT|]. symmetry in Hv. apply fmap_None in Hv. exact Hv.
  - (* close *) destruct (L !! i) as [[o dp]|] eqn:Li; [|discriminate Hv]. injection Hv as ->. rewrite Ey in H0. destruct H0 as [Ht (w2 & He & ok & Hc)]. pose proof (ok_outside _ _ _ _ HO (HS _ _ He)) as HO2.
    destruct (destroyed _ _ _ _ _ _ _ _ _ HO2 Li Hc) as (w3 & -> & HO3). exists w3, (delete i L). split; [reflexivity|]. split; [exact HO3|]. apply thr_close. exact HT.
  - inversion Hv.
  - keep. rewrite Li. reflexivity.
  - exists dw, L. split; [exact Ey|]. split; [exact HO|]. apply thr_del; [exact HT|]. apply fmap_None in Hv. exact Hv.
  - destruct (Hl _ eq_refl).
  - subst y. destruct H as (w' & -> & O). exists w', L. split; [reflexivity|]. split; [exact (ok_outside _ _ _ _ HO O)|exact HT].
Qed.
Definition no_kill (l : blabel) : Prop := match l with XKill _ => False | _ => True end.
Lemma dinv_run S w0 w T w1 : modest S -> brun (streams S) between_requests w T w1 -> Forall no_kill T -> dinv w0 w -> dinv w0 w1.
Proof.
  intros HS H. induction H as [w|w l wm T w1 Hs Hr IH]; intros HF HI; [exact HI|]. apply Forall_app in HF as [H1 H2]. apply IH; [exact H2|]. eapply dinv_step; [exact HS|exact Hs| |exact HI].
  intros root ->. inversion H1 as [|? ? N _]. destruct N.
Qed.
Lemma dinv_start root w0 b0 : bopen root (Some w0) = Done b0 -> dw_objs w0 = ∅ -> dinv w0 b0.
Proof.
  intros Ho F. unfold bopen in Ho. destruct (open_cache root db_empty) as [[d r]| | |]; try discriminate Ho. injection Ho as <-. exists w0, ∅. split; [reflexivity|]. split.
  - split; auto.
    + intros o dp. rewrite F, lookup_empty. split; [discriminate|]. intros [i E]. rewrite lookup_empty in E. discriminate.
    + intros i j o dp o' dp' E. rewrite lookup_empty in E. discriminate.
    + intros dp. split; [auto|]. intros [H|(i & o & E)]; [exact H|]. rewrite lookup_empty in E. discriminate.
    + intros i o dp E. rewrite lookup_empty in E. discriminate.
  - intros i. cbn [b_th]. rewrite !lookup_empty. reflexivity.
Qed.
Lemma objs_size w0 L w (th : gmap Z bthread) : objs_ok w0 L w -> thr L th -> (size (dw_objs w) <= size th)%nat.
Proof.
  intros [H1 H2 H3 H4 H5] HT. apply Nat.le_trans with (size L).
  - unfold size, map_size. rewrite <- (fmap_length snd (map_to_list L)). apply submseteq_length. apply NoDup_submseteq; [apply NoDup_map_to_list|].
    intros [o dp] Hin. apply elem_of_map_to_list in Hin. apply H1 in Hin as [i Ei]. apply elem_of_list_fmap. exists (i, (o, dp)). split; [reflexivity|]. apply elem_of_map_to_list. exact Ei.
  - rewrite <- !size_dom. apply subseteq_size. intros i Hi. apply elem_of_dom in Hi as [x Ei]. apply elem_of_dom. specialize (HT i). destruct (th !! i); [eauto|congruence].
Qed.

(** ** Whatever the schedule, nothing is undefined, there is at most one directory object for every
    request in progress, and when no request is in progress exactly the streams of the start are open. *)
Theorem C79_streams : forall S root w0 b0 T b, modest S -> dw_objs w0 = ∅ -> bopen root (Some w0) = Done b0 -> brun (streams S) between_requests b0 T b -> Forall no_kill T ->
  exists w, b_y b = Some w /\ (size (dw_objs w) <= size (b_th b))%nat /\ (b_th b = ∅ -> at_rest w0 w).
Proof.
  intros S root w0 b0 T b HS F Ho H HF. destruct (dinv_run S w0 _ _ _ HS H HF (dinv_start _ _ _ Ho F)) as (w & L & Ey & HO & HT). exists w. split; [exact Ey|]. split; [eapply objs_size; eassumption|]. intros E.
  assert (EL : L = ∅). { apply map_eq. intros i. rewrite lookup_empty. specialize (HT i). rewrite E, lookup_empty in HT. exact HT. } subst L. destruct HO as [H1 H2 H3 H4 H5]. split; [|split; [|exact H5]].
  - apply map_eq. intros o. rewrite lookup_empty. destruct (dw_objs w !! o) as [dp|] eqn:Eo; [|reflexivity]. apply H1 in Eo as [i Ei]. rewrite lookup_empty in Ei. discriminate.
  - apply set_eq. intros dp. rewrite !elem_of_dom. rewrite H3. split; [|auto]. intros [Hs|(i & o & Ei)]; [exact Hs|]. rewrite lookup_empty in Ei. discriminate.
Qed.
Print Assumptions C79_streams.
(** ... and the replies are those of the object of C53. *)
Theorem C79_linearizable : forall S root w0 b0 T b, bopen root (Some w0) = Done b0 -> brun (streams S) between_requests b0 T b ->
  exists a0 a, aopen root = Done a0 /\ arun a0 (labels T) a /\ b_comm b = s_db (a_s a) /\ (b_th b = ∅ -> b_refs b = s_refs (a_s a) /\ a_pend a = ∅).
Proof. intros S root w0 b0 T b. apply C78_linearizable. apply streams_typed. Qed.
Print Assumptions C79_linearizable.

(** ** Sample, on the operating system of C77_sample: two requests list the root; the object of the
    first is still alive when the second opens its own, on another stream.  The second thread's
    object has number 4 (the answer says which); streams 8 and 9. *)
Definition give77 (y : option diow) (c : bcall) (a : bans) : option (option diow) :=
  match y with
  | None => None
  | Some w =>
    match c, a with
    | KOpendir p, ADir o =>
      match os_dir os77 p with
      | Ok (dir, l) =>
        if bool_decide (dir_legal w (DOpen o (o + 5) dir l)) then match dir_call w (DOpen o (o + 5) dir l) with Done (_, w1) => Some (Some w1) | _ => None end else None
      | Err e => None
      end
    | KReaddir o, AEntry n => match dir_call w (DRead o None) with Done (DEnt m i n' b, w1) => if bool_decide (n = n') then Some (Some w1) else None | _ => None end
    | KReaddir o, AFail e => match dir_call w (DRead o None) with Done (DErr e', w1) => if bool_decide (e = e') then Some (Some w1) else None | _ => None end
    | KLstat p, AStat _ | KLstat p, AFail _ => Some (Some w)
    | KDestroyDir o, AVoid => match dir_call w (DDestroy o true) with Done (DOk, w1) | Done (DNone, w1) => Some (Some w1) | _ => None end
    | _, _ => None
    end
  end.
Lemma give77_ok y c a y' : give77 y c a = Some y' -> streams os77 y c a y'.
Proof.
  unfold give77. destruct y as [w|]; [|discriminate]. destruct c; try discriminate; destruct a as [st|l|d0|n|f|dd|nn| |e]; try discriminate.
  - intros H. injection H as <-. split; [exact I|]. exists w. split; reflexivity.
  - intros H. injection H as <-. split; [exact I|]. exists w. split; reflexivity.
  - destruct (os_dir os77 p) as [[dir l]|e] eqn:Ed; [|discriminate]. case_bool_decide as Hl; [|discriminate]. cbn [dir_call]. intros H. injection H as <-. split; [exact I|]. exists w. split; [reflexivity|]. rewrite Ed. exists d0, (d0 + 5). split; [exact Hl|]. split; [reflexivity|]. split; reflexivity.
  - destruct (dir_call w (DRead d None)) as [[[|m i n' b| |e] w1]| | |] eqn:Ec; try discriminate. case_bool_decide as En; [|discriminate]. intros H. injection H as <-. split; [exact I|]. exists w. split; [reflexivity|]. exists None. split; [exact I|]. unfold calls_dir. rewrite Ec. subst. split; reflexivity.
  - destruct (dir_call w (DRead d None)) as [[[|m i n' b| |e'] w1]| | |] eqn:Ec; try discriminate. case_bool_decide as En; [|discriminate]. intros H. injection H as <-. split; [exact I|]. exists w. split; [reflexivity|]. exists None. split; [exact I|]. unfold calls_dir. rewrite Ec. subst. split; reflexivity.
  - destruct (dir_call w (DDestroy d true)) as [[[|m i n' b| |e'] w1]| | |] eqn:Ec; try discriminate; intros H; injection H as <-; (split; [exact I|]; exists w; split; [reflexivity|]; exists true; unfold calls_dir; rewrite Ec; split; reflexivity).
Qed.
Definition one79 (i o : Z) : list choice := [ChStep i; ChStep i; ChAnswer i (ADir o); ChStep i; ChAnswer i (AEntry nD); ChAnswer i (AStat dirA); ChStep i; ChAnswer i (AFail 0); ChStep i; ChStep i; ChStep i; ChStep i; ChStep i].
Definition cs79 : list choice := [ChCall 1 (BOpendir 1); ChCall 2 (BOpendir 1)] ++ one79 1 3 ++ one79 2 4 ++ [ChAnswer 2 AVoid; ChAnswer 1 AVoid].
Definition told79 : list (Z * option bcall) :=
  [(1, Some (KOpendir [47])); (1, Some (KReaddir 3)); (1, Some (KLstat pD)); (1, Some (KReaddir 3)); (1, None);
   (2, Some (KOpendir [47])); (2, Some (KReaddir 4)); (2, Some (KLstat pD)); (2, Some (KReaddir 4)); (2, None); (2, Some (KDestroyDir 4)); (1, Some (KDestroyDir 3))].
Definition check79 : bool :=
  match bopen rootA (Some w77) with
  | Done w0 => match bexecs give77 w0 cs79 with Some (T, w) => bool_decide (told_of T = told79) && bool_decide (dom (b_th w) = (∅ : gset Z)) && forallb (fun l => match l with XKill _ => false | _ => true end) T | None => false end
  | _ => false
  end.
Lemma brun_weak {Y} (B : machine Y) (e1 e2 : Y -> Y -> Prop) w T w' : (forall y y', e1 y y' -> e2 y y') -> brun B e1 w T w' -> brun B e2 w T w'.
Proof.
  intros He H. induction H as [|w l w1 T w' Hs Hr IH]; [constructor|]. econstructor; [|exact IH]. destruct Hs; try (econstructor; eauto; fail).
Qed.
Example C79_sample : modest os77 /\ dw_objs w77 = ∅ /\ exists b0 T b, bopen rootA (Some w77) = Done b0 /\ brun (streams os77) between_requests b0 T b /\ Forall no_kill T /\ told_of T = told79 /\ dom (b_th b) = (∅ : gset Z).
Proof.
  split; [intros w w' <-; split_and!; reflexivity|]. split; [reflexivity|].
  assert (H : check79 = true) by (vm_compute; reflexivity). revert H. unfold check79. destruct (bopen rootA (Some w77)) as [w0| | |]; try discriminate. destruct (bexecs give77 w0 cs79) as [[T w]|] eqn:E; [|discriminate]. intros H. apply andb_prop in H as [H H3]. apply andb_prop in H as [H1 H2].
  exists w0, T, w. split; [reflexivity|]. split; [eapply brun_weak; [|exact (bexecs_ok (streams os77) give77 give77_ok _ _ _ _ E)]; intros y y' []|]. split; [|split; [exact (bool_decide_eq_true_1 _ H1)|exact (bool_decide_eq_true_1 _ H2)]].
  clear -H3. induction T as [|l T IH]; [constructor|]. cbn [forallb] in H3. apply andb_prop in H3 as [E1 E2]. constructor; [|auto]. destruct l; try exact I. discriminate E1.
Qed.
