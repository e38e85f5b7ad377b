(** Property C81: concurrent requests are answered with what the backend told this request. *)
From Verif Require Import PropsBacking.
From Verif Require Import PropsConc ConcCalls PropsConcCalls PropsConcWhere.

(** ** Specification *)
(** [replies q tr l]: having made the calls [tr], and these only, [q] is answered with [l].  For an
    error before the first call see [re_path] (the inode has no path); [re_offline]: the backend is not
    reachable and the cache answers. *)
Inductive replies : breq -> trace -> list reply -> Prop :=
| re_path q e : (forall q', q <> BPlain q') -> replies q [] [RErr e]
| re_entry p n c x st : replies (BLookup p n) [(c, AStat st)] [REntry x (from_backend_stat st)]
| re_not_stored p n c st e : replies (BLookup p n) [(c, AStat st)] [RErr e]
| re_gone p n c e : e <> ENOTCONN -> replies (BLookup p n) [(c, AFail e)] [RErr e]
| re_offline p n c l : replies (BLookup p n) [(c, AFail ENOTCONN)] l
| re_link x c t : replies (BReadlink x) [(c, ALink t)] [RReadlink (cstr t)]
| re_nolink x c e : e <> ENOTCONN -> replies (BReadlink x) [(c, AFail e)] [RErr e]
| re_link_offline x c l : replies (BReadlink x) [(c, AFail ENOTCONN)] l
| re_opened x c d1 tr e : replies (BOpendir x) ((c, ADir d1) :: tr ++ [(KReaddir d1, AFail e)]) [ROpen]   (* after the end of the directory *)
| re_no_dir x c e : e <> ENOTCONN -> replies (BOpendir x) [(c, AFail e)] [RErr e]
| re_dir_offline x c : replies (BOpendir x) [(c, AFail ENOTCONN)] [ROpen]
| re_plain q l : replies (BPlain q) [] l.

(** ** Programs that reply so *)
Inductive good (q : breq) : trace -> bprog -> Prop :=
| go_read tr k : (forall d, good q tr (k d)) -> good q tr (BRead k)
| go_op tr o k : (forall x, good q tr (k x)) -> good q tr (BOp o k)
| go_commit tr k od : replies q tr (k (Ok tt)) -> good q tr (BCommit k od)
| go_drop tr l : replies q tr l -> good q tr (BDrop l)
| go_fault tr : good q tr BFault
| go_call tr c k : (forall a, typed c a -> good q (tr ++ [(c, a)]) (k a)) -> good q tr (BCall c k)
| go_list tr d1 x bp k c rest : tr = (c, ADir d1) :: rest -> (forall rest e, good q ((c, ADir d1) :: rest ++ [(KReaddir d1, AFail e)]) k) -> good q tr (BList d1 x bp k).
Lemma good_quiet q tr p : quiet p -> (forall l, replies q tr l) -> good q tr p.
Proof. intros Q H. induction Q; constructor; auto. Qed.
Lemma good_path q x k : (forall q', q <> BPlain q') -> (forall pp, good q [] (k pp)) -> good q [] (at_path x k).
Proof. intros Hq H. constructor. intros d. destruct (path d x) as [[pp|e]| | |]; [apply H|constructor; apply re_path; exact Hq|constructor..]. Qed.
Lemma good_emb_op q tr o k : (forall x, good q tr (emb (k x))) -> good q tr (emb (POp o k)).
Proof. intros H. cbn [emb]. constructor. exact H. Qed.
Lemma good_start q wr p : bcode q = inl (wr, p) -> good q [] p.
Proof.
  destruct q as [p0 n|x|x|q]; cbn [bcode]; intros E.
  - injection E as <- <-. apply good_path; [discriminate|]. intros pp. constructor. intros a Ha. cbn [app]. destruct a as [st| | | | | | | |e]; try destruct Ha.
    + unfold p_lookup_rest. apply good_emb_op. intros [i|e]; [|constructor; apply re_not_stored]. apply good_emb_op. intros [u|e]; [|constructor; apply re_not_stored]. cbn [emb]. constructor. apply re_entry.
    + destruct (decide (e = ENOTCONN)) as [->|He]; [apply good_quiet; [apply (quiet_emb (p_lookup_rest p0 n (Err ENOTCONN)))|intros l; apply re_offline]|].
      unfold p_lookup_rest. rewrite (proj2 (Z.eqb_neq _ _) He). apply good_emb_op. intros y. cbn [emb]. constructor. apply re_gone, He.
  - injection E as <- <-. apply good_path; [discriminate|]. intros pp. constructor. intros a Ha. cbn [app]. destruct a as [|t| | | | | | |e]; try destruct Ha.
    + unfold p_readlink_rest. apply good_emb_op. intros y. cbn [emb]. constructor. apply re_link.
    + destruct (decide (e = ENOTCONN)) as [->|He]; [apply good_quiet; [apply (quiet_emb (p_readlink_rest x (Err ENOTCONN)))|intros l; apply re_link_offline]|].
      unfold p_readlink_rest. rewrite (proj2 (Z.eqb_neq _ _) He). apply good_emb_op. intros y. cbn [emb]. constructor. apply re_nolink, He.
  - injection E as <- <-. apply good_path; [discriminate|]. intros pp. constructor. intros a Ha. cbn [app]. destruct a as [| |d1| | | | | |e]; try destruct Ha.
    + constructor. intros y. eapply go_list; [reflexivity|]. intros rest e. unfold h_opendir_end. constructor. intros y1. constructor. intros y2. constructor. cbn [opened]. apply re_opened.
    + destruct (e =? ENOTCONN) eqn:Ee; [apply Z.eqb_eq in Ee as ->; constructor; apply re_dir_offline|apply Z.eqb_neq in Ee; constructor; apply re_no_dir, Ee].
  - destruct (code q) as [[wr' p']|]; [|discriminate]. injection E as <- <-. apply good_quiet; [apply quiet_emb|]. intros l. apply re_plain.
Qed.
Lemma good_back q tr p c f a : good q tr p -> about_to p = Some (c, f) -> typed c a -> good q (tr ++ [(c, a)]) (f a).
Proof.
  intros G E Ha. destruct G as [tr k H|tr o k H|tr k od H|tr l H|tr|tr c0 k H|tr d1 x bp k c1 rest -> H]; cbn [about_to] in E; try discriminate E; injection E as <- <-; [auto|].
  destruct a as [| | |n| | | | |e]; try destruct Ha; [|rewrite <- app_comm_cons; apply H].
  constructor. intros a Ha. rewrite <- !app_comm_cons. destruct a as [st| | | | | | | |e]; try destruct Ha; [constructor; intros y|]; (eapply go_list; [reflexivity|exact H]).
Qed.

(** ** Along a run *)
Section own.
  Context {Y : Type} (B : machine Y) (env : Y -> Y -> Prop) (HB : well_typed B).
  Definition fine (q : breq) (tr : trace) (t : bthread) : Prop :=
    match t with
    | BWait q' => q' = q /\ tr = []
    | BRun _ _ _ _ _ p => good q tr p
    | BTUnlock l _ | BTReply l _ => replies q tr l
    | _ => False
    end.
  Definition own (i : Z) (q : breq) (tr : trace) (w : bworld Y) : Prop := exists t, b_th w !! i = Some t /\ fine q tr t.
  Lemma own_step i q tr w l w1 : bstep B env w l w1 -> goes_on_with i l -> own i q tr w -> own i q (tr ++ future i (bseen l)) w1.
  Proof using HB.
    intros Hs Hl (t & E & F).
    assert (Hsame : others_label i l -> b_th w1 !! i = b_th w !! i -> own i q (tr ++ future i (bseen l)) w1).
    { intros Ho E1. rewrite <- (app_nil_r (bseen l)), (future_other i l [] Ho). cbn [future]. rewrite app_nil_r. exists t. rewrite E1. auto. }
    destruct Hs; cbn [goes_on_with] in Hl; try contradiction; cbn [b_th] in E;
      try (match goal with H1 : ?mm !! ?j = _ |- _ => destruct (decide (j = i)) as [->|Hj]; [|apply Hsame; [cbn; auto|cbn [b_th]; first [rewrite lookup_insert_ne by exact Hj; reflexivity|rewrite lookup_delete_ne by exact Hj; reflexivity|destruct od; [rewrite lookup_insert_ne by exact Hj; reflexivity|rewrite lookup_delete_ne by exact Hj; reflexivity]]]]; rewrite E in H1; try discriminate H1; try (injection H1 as ->); cbn [fine] in F end);
      try contradiction; cbn [bseen future]; rewrite ?app_nil_r.
    all: try (eexists; cbn [b_th]; rewrite lookup_insert; split; [reflexivity|]; cbn [fine]).
    - (* none *) destruct F as [-> ->]. destruct q as [p0 n|x|x|q]; cbn [bcode] in *; try discriminate. apply re_plain.
    - destruct F as [-> ->]. eapply good_start; eassumption.
    - destruct F as [-> ->]. eapply good_start; eassumption.
    - inversion F; auto.
    - inversion F; auto.
    - inversion F; auto.
    - rewrite Z.eqb_refl. eapply good_back; [exact F|eassumption|eapply HB; eassumption].
    - inversion F; auto.
    - inversion F; auto.
    - exact F.
    - pose proof (Hsame I eq_refl) as H1. cbn [bseen future] in H1. rewrite app_nil_r in H1. exact H1.
  Qed.
  Lemma own_run i q w T w1 : brun B env w T w1 -> Forall (goes_on_with i) T -> forall tr, own i q tr w -> own i q (tr ++ future i T) w1.
  Proof using HB.
    induction 1 as [w|w l wm T w1 Hs Hr IH]; intros HF tr Hd; [cbn [future]; rewrite app_nil_r; exact Hd|]. apply Forall_app in HF as [H1 H2].
    assert (Hl : goes_on_with i l) by (destruct l; cbn [bseen] in H1; try (inversion H1; assumption); exact I).
    rewrite (future_split i l T Hl), app_assoc. apply (IH H2). eapply own_step; eassumption.
  Qed.
End own.
(** Whatever the schedule and whatever other requests and others do to the cache and the backend
    meanwhile: a request is answered with what the backend told this request. *)
Theorem C81_own_answer : forall Y (B : machine Y) env w0 T1 i q T2 w l w1, well_typed B ->
  brun B env w0 (T1 ++ XCall i q :: T2) w -> bstep B env w (XRet i l) w1 -> Forall (goes_on_with i) T2 -> replies q (future i T2) l.
Proof.
  intros Y B env w0 T1 i q T2 w l w1 HB H Hs HF. apply brun_app in H as (m1 & _ & H). destruct (brun_cons _ _ _ _ _ H _ _ eq_refl) as (m2 & m3 & _ & Hcall & H2 & _).
  assert (Hd : own i q [] m3) by (inversion Hcall; subst; eexists; cbn [b_th]; rewrite lookup_insert; split; [reflexivity|split; reflexivity]).
  destruct (own_run B env HB i q _ _ _ H2 HF [] Hd) as (t & E & F). cbn [app] in F. inversion Hs; subst; cbn [b_th] in E; match goal with H1 : _ !! i = Some _ |- _ => rewrite E in H1; injection H1 as -> end; cbn [fine] in F; [exact F|]. inversion F; assumption.
Qed.
Print Assumptions C81_own_answer.
(** two requests at once: a listing of the root and a lookup of "d"; the lookup is answered *)
Definition cs81 : list choice :=
  [ChCall 1 (BOpendir 1); ChCall 2 (BLookup 1 nD); ChStep 1; ChStep 1; ChAnswer 1 (ADir 3); ChStep 1; ChAnswer 1 (AFail 0); ChStep 1; ChStep 1; ChStep 1; ChStep 1;
   ChStep 2; ChStep 2; ChAnswer 2 (AStat dirA); ChStep 2; ChStep 2; ChStep 2; ChStep 2].
Definition check81 : bool :=
  match bopen rootA tt with
  | Done w0 => match bexecs accept w0 cs81 with
    | Some ([XCall i0 _; XCall i q; XBack _ _ _; XBack _ _ _; XBack _ _ _], w) =>
      match bexec accept w (ChStep 2), bexec accept w (ChStep 1) with
      | Some (XRet j [REntry x a], w1), Some (XRet j1 _, _) => bool_decide (i0 = 1 /\ i = 2 /\ j = 2 /\ j1 = 1 /\ x = 2 /\ a = from_backend_stat dirA)
      | _, _ => false end
    | _ => false end
  | _ => false
  end.
Example C81_sample : exists w0 T1 q T2 w w1, bopen rootA tt = Done w0 /\ brun anything (fun _ _ => False) w0 (T1 ++ XCall 2 q :: T2) w /\ bstep anything (fun _ _ => False) w (XRet 2 [REntry 2 (from_backend_stat dirA)]) w1 /\ Forall (goes_on_with 2) T2.
Proof.
  assert (H : check81 = true) by (vm_compute; reflexivity). revert H. unfold check81. destruct (bopen rootA tt) as [w0| | |]; try discriminate. destruct (bexecs accept w0 cs81) as [[T w]|] eqn:E; [|discriminate]. apply (bexecs_ok anything accept accept_ok) in E.
  destruct T as [|[i0 q0| | | |] T]; try discriminate. destruct T as [|[i q| | | |] T]; try discriminate. destruct T as [|[| | |i1 c1 a1|] T]; try discriminate. destruct T as [|[| | |i2 c2 a2|] T]; try discriminate. destruct T as [|[| | |i3 c3 a3|] T]; try discriminate. destruct T; try discriminate.
  destruct (bexec accept w (ChStep 2)) as [[[|j l| | |] w1]|] eqn:E2; try discriminate. destruct l as [|[] [|]]; try discriminate. destruct (bexec accept w (ChStep 1)) as [[[|j1 l1| | |] w2]|]; try discriminate. apply (bexec_ok anything accept accept_ok) in E2. intros H. apply bool_decide_eq_true_1 in H as (-> & -> & -> & -> & -> & ->).
  exists w0, [XCall 1 q0], q, [XBack i1 c1 a1; XBack i2 c2 a2; XBack i3 c3 a3], w, w1. split; [reflexivity|]. split; [exact E|]. split; [exact E2|]. repeat constructor.
Qed.
