(** Property C78 (continued): which calls a request makes, and with which paths, under any schedule. *)
From Verif Require Import PropsBacking.
From Verif Require Import PropsConc ConcCalls PropsConcCalls.

(** ** Specification *)
(** the path of the backend for the path [pp] of the mount ([pp] of the root is empty), and for an entry of that directory *)
Definition dir_name (pp : bytes) : bytes := if decide (pp = []) then [47] else pp.
Definition entry_name (pp n : bytes) : bytes := if decide (pp = [] \/ pp = [47]) then [47] ++ n else pp ++ [47] ++ n.
(** readdir on [d1], lstat for every entry it gives, again and again *)
Inductive rounds (pp : bytes) (d1 : Z) : trace -> Prop :=
| ro_nil : rounds pp d1 []
| ro_next tr n a : rounds pp d1 tr -> typed (KLstat (entry_name pp n)) a ->
    rounds pp d1 (tr ++ [(KReaddir d1, AEntry n); (KLstat (entry_name pp n), a)]).
(** [tr] is a beginning of what [q] asks the backend; [pp]: the path of its inode (the parent's for lookup) *)
Inductive asks (pp : bytes) : breq -> trace -> Prop :=
| as_nothing q : asks pp q []
| as_lookup p n a : asks pp (BLookup p n) [(KLstat (pp ++ [47] ++ n), a)]
| as_readlink x a : asks pp (BReadlink x) [(KReadlink (dir_name pp), a)]
| as_failed x e : asks pp (BOpendir x) [(KOpendir (dir_name pp), AFail e)]
| as_opened x d1 tr : rounds pp d1 tr -> asks pp (BOpendir x) ((KOpendir (dir_name pp), ADir d1) :: tr)
| as_entry x d1 tr n : rounds pp d1 tr -> asks pp (BOpendir x) ((KOpendir (dir_name pp), ADir d1) :: tr ++ [(KReaddir d1, AEntry n)])
| as_end x d1 tr e : rounds pp d1 tr -> asks pp (BOpendir x) ((KOpendir (dir_name pp), ADir d1) :: tr ++ [(KReaddir d1, AFail e)]).
Definition subject (q : breq) : Z := match q with BLookup x _ | BReadlink x | BOpendir x => x | BPlain _ => 0 end.

(** ** Paths *)
Lemma path_loop_slash fuel d : forall x buf pp, path_loop fuel d x buf = Done (Ok pp) -> exists t, pp = 47 :: t.
Proof.
  induction fuel as [|fuel IH]; intros x buf pp; cbn [path_loop]; [discriminate|]. destruct (parent_of d x) as [p|e]; [|discriminate]. destruct (name_in d p x) as [n|e]; [|discriminate]. cbv zeta. destruct (p =? ROOT_INO).
  - intros E. injection E as <-. rewrite rev_app_distr. cbn [rev app]. eauto.
  - intros E. eapply IH. exact E.
Qed.
Lemma path_slash d x pp : path d x = Done (Ok pp) -> pp = [] \/ exists t, pp = 47 :: t.
Proof.
  unfold path. destruct (x =? ROOT_INO); [intros E; injection E as <-; auto|]. intros E. right. eapply path_loop_slash. exact E.
Qed.
Lemma dir_name_ok pp : backend_path pp = dir_name pp.
Proof. destruct pp; reflexivity. Qed.
Lemma entry_name_ok pp n : pp = [] \/ (exists t, pp = 47 :: t) -> join_path (backend_path pp) n = entry_name pp n.
Proof.
  intros [->|[t ->]]; [reflexivity|]. unfold entry_name. destruct t as [|c t]; [reflexivity|]. rewrite decide_False; [reflexivity|]. intros [E|E]; discriminate E.
Qed.

(** ** Programs that ask what they should *)
Inductive well (pp : bytes) (q : breq) : trace -> bprog -> Prop :=
| we_quiet past p : quiet p -> well pp q past p
| we_op past o k : (forall x, well pp q past (k x)) -> well pp q past (BOp o k)
| we_call past c k : (forall a, typed c a -> asks pp q (past ++ [(c, a)])) -> (forall a, typed c a -> well pp q (past ++ [(c, a)]) (k a)) -> well pp q past (BCall c k)
| we_list past d1 x bp k tr : quiet k -> bp = backend_path pp -> (exists x0, q = BOpendir x0) -> past = (KOpendir (dir_name pp), ADir d1) :: tr -> rounds pp d1 tr -> well pp q past (BList d1 x bp k).
Definition at_start (q : breq) (past : trace) (C d : db) (p : bprog) : Prop := past = [] /\ d = C /\ bcode q = inl (true, p).
Definition going (q : breq) (past : trace) (C d : db) (p : bprog) : Prop :=
  at_start q past C d p \/ quiet p \/ exists pp, path C (subject q) = Done (Ok pp) /\ well pp q past p.
Lemma well_start (f : bytes -> bprog) C q : (forall pp, well pp q [] (f pp)) ->
  quiet (match path C (subject q) with Done (Ok pp) => f pp | Done (Err e) => BDrop [RErr e] | _ => BFault end) \/ exists pp, path C (subject q) = Done (Ok pp) /\ well pp q [] (match path C (subject q) with Done (Ok pp) => f pp | Done (Err e) => BDrop [RErr e] | _ => BFault end).
Proof.
  intros H. destruct (path C (subject q)) as [[pp0|e]| | |]; [right; exists pp0; split; [reflexivity|apply H]|left; constructor..].
Qed.
(** the first step of a handler reads the path *)
Lemma start_read q C k : bcode q = inl (true, BRead k) -> no_backend q -> quiet (BRead k) \/ (quiet (k C) \/ exists pp, path C (subject q) = Done (Ok pp) /\ well pp q [] (k C)).
Proof.
  intros E Hn. destruct q as [p n|x|x|q]; cbn [bcode] in E.
  - right. injection E as <-. refine (well_start _ C (BLookup p n) _). intros pp. apply we_call; intros a Ha; [apply as_lookup|]. apply we_quiet. destruct a as [st| | | | | | | |e]; try destruct Ha; [exact (quiet_emb (p_lookup_rest p n (Ok st)))|exact (quiet_emb (p_lookup_rest p n (Err e)))].
  - right. injection E as <-. refine (well_start _ C (BReadlink x) _). intros pp. apply we_call; intros a Ha; [cbn [app]; rewrite dir_name_ok; apply as_readlink|]. apply we_quiet. destruct a as [ |l| | | | | | |e]; try destruct Ha; [exact (quiet_emb (p_readlink_rest x (Ok l)))|exact (quiet_emb (p_readlink_rest x (Err e)))].
  - right. injection E as <-. refine (well_start _ C (BOpendir x) _). intros pp. apply we_call; intros a Ha; cbn [app]; rewrite ?dir_name_ok; destruct a as [| |d1| | | | | |e]; try destruct Ha.
    + apply (as_opened pp x d1 []). constructor.
    + apply as_failed.
    + apply we_op. intros _. eapply we_list; [apply end_quiet|rewrite dir_name_ok; reflexivity|eauto|reflexivity|constructor].
    + apply we_quiet. destruct (e =? ENOTCONN); constructor.
  - left. destruct (code q) as [[wr p]|]; [|discriminate]. injection E as -> E. rewrite <- E. apply quiet_emb.
Qed.
Lemma well_read pp q past k d : well pp q past (BRead k) -> quiet (k d).
Proof. intros H. inversion H as [? ? Q| | |]; subst. inversion Q; auto. Qed.
Lemma well_op pp q past o k x : well pp q past (BOp o k) -> well pp q past (k x).
Proof. intros H. inversion H as [? ? Q|? ? ? Hk| |]; subst; [|apply Hk]. inversion Q; subst. apply we_quiet. auto. Qed.
Lemma well_back pp q past p c f a : pp = [] \/ (exists t, pp = 47 :: t) -> well pp q past p -> about_to p = Some (c, f) -> typed c a -> asks pp q (past ++ [(c, a)]) /\ well pp q (past ++ [(c, a)]) (f a).
Proof.
  intros Hs H E Ha. destruct H as [past p Q|past o k _|past c0 k Hc Hk|past d1 x bp k tr Hq Hbp [x0 ->] Hp Hr]; cbn [about_to] in E; try discriminate E.
  - destruct (quiet_calls _ _ _ Q E).
  - injection E as <- <-. auto.
  - injection E as <- <-. subst past bp. destruct a as [| | |n| | | | |e]; try destruct Ha; cbn [app].
    + split; [apply as_entry; exact Hr|]. apply we_call; intros a Ha2; rewrite (entry_name_ok pp n Hs); cbn [app]; rewrite <- app_assoc; cbn [app].
      * apply as_opened. apply ro_next; [exact Hr|exact Ha2].
      * assert (Hr2 : rounds pp d1 (tr ++ [(KReaddir d1, AEntry n); (KLstat (entry_name pp n), a)])) by (apply ro_next; [exact Hr|exact Ha2]).
        destruct a; try destruct Ha2; [apply we_op; intros _|]; (eapply we_list; [exact Hq|reflexivity|eauto|reflexivity|exact Hr2]).
    + split; [apply as_end; exact Hr|]. apply we_quiet. exact Hq.
Qed.

(** ** The invariant of a run *)
Section where_.
  Context {Y : Type} (B : machine Y) (env : Y -> Y -> Prop) (HB : well_typed B).
  Definition winv (w : bworld Y) : Prop := forall i, (forall q past wr d rw p, b_th w !! i = Some (BRun q wr past d rw p) -> no_backend q /\ (wr = true -> going q past (b_comm w) d p)) /\ (forall q, b_th w !! i = Some (BWait q) -> no_backend q).
  Lemma winv_upd c r m k th y i t r' m' k' y' : winv (BW c r m k th y) ->
    (forall q past wr d rw p, t = BRun q wr past d rw p -> no_backend q /\ (wr = true -> going q past c d p)) -> (forall q, t = BWait q -> no_backend q) -> winv (BW c r' m' k' (<[i := t]> th) y').
  Proof.
    intros HI H1 H2 j. cbn [b_th b_comm]. destruct (decide (j = i)) as [->|Hj]; [rewrite lookup_insert; split; [intros q0 past0 wr0 d0 rw0 p0 E; injection E as E; exact (H1 _ _ _ _ _ _ E)|intros q0 E; injection E as E; exact (H2 _ E)]|]. rewrite lookup_insert_ne by congruence. exact (HI j).
  Qed.
  Lemma winv_del c r m k th y i r' m' k' y' : winv (BW c r m k th y) -> winv (BW c r' m' k' (delete i th) y').
  Proof. intros HI j. cbn [b_th b_comm]. destruct (decide (j = i)) as [->|Hj]; [rewrite lookup_delete; split; discriminate|]. rewrite lookup_delete_ne by congruence. exact (HI j). Qed.
  Lemma winv_step w l w1 : bstep B env w l w1 -> binv w -> winv w -> winv w1.
  Proof using HB.
    intros Hs HBi HI. destruct Hs;
      try (match goal with H1 : ?mm !! ?i = Some ?t |- _ => pose proof (HI i) as [I1 I2]; cbn [b_th b_comm] in I1, I2; rewrite H1 in I1, I2 end);
      try (eapply winv_upd; [exact HI|intros; discriminate|intros; discriminate]; fail);
      try (eapply winv_del; exact HI).
    - eapply winv_upd; [exact HI|intros; discriminate|]. intros q0 E. injection E as <-. assumption.
    - eapply winv_upd; [exact HI| |intros; discriminate]. intros q0 past0 wr0 d0 rw0 p0 E. injection E as <- <- <- <- <- <-. split; [apply I2; reflexivity|]. intros _. left. repeat split. assumption.
    - eapply winv_upd; [exact HI| |intros; discriminate]. intros q0 past0 wr0 d0 rw0 p0 E. injection E as <- <- <- <- <- <-. split; [apply I2; reflexivity|discriminate].
    - (* read *) destruct (I1 _ _ _ _ _ _ eq_refl) as [Hn Hg]. eapply winv_upd; [exact HI| |intros; discriminate]. intros q0 past0 wr0 d0 rw0 p0 E. injection E as <- <- <- <- <- <-. split; [exact Hn|]. intros Hwr. destruct (Hg Hwr) as [(-> & -> & E)|[Q|(pp & Hp & W)]].
      + destruct (start_read q c f E Hn) as [Q|H1]; [right; left; inversion Q; auto|right; exact H1].
      + right. left. inversion Q; auto.
      + right. left. eapply well_read. exact W.
    - destruct (I1 _ _ _ _ _ _ eq_refl) as [Hn Hg]. eapply winv_upd; [exact HI| |intros; discriminate]. intros q0 past0 wr0 d0 rw0 p0 E. injection E as <- <- <- <- <- <-. split; [exact Hn|]. intros Hwr. destruct (Hg Hwr) as [(-> & -> & E)|[Q|(pp & Hp & W)]].
      + right. left. destruct q as [p n|x0|x0|q]; cbn [bcode] in E; try discriminate E. destruct (code q) as [[wr' p]|]; [|discriminate]. injection E as -> E. pose proof (quiet_emb p) as Q. rewrite E in Q. inversion Q; auto.
      + right. left. inversion Q; auto.
      + right. right. exists pp. split; [exact Hp|]. eapply well_op. exact W.
    - destruct (I1 _ _ _ _ _ _ eq_refl) as [Hn Hg]. eapply winv_upd; [exact HI| |intros; discriminate]. intros q0 past0 wr0 d0 rw0 p0 E. injection E as <- <- <- <- <- <-. split; [exact Hn|]. intros Hwr. destruct (Hg Hwr) as [(-> & -> & E)|[Q|(pp & Hp & W)]].
      + right. left. destruct q as [p n|x0|x0|q]; cbn [bcode] in E; try discriminate E. destruct (code q) as [[wr' p]|]; [|discriminate]. injection E as -> E. pose proof (quiet_emb p) as Q. rewrite E in Q. inversion Q; auto.
      + right. left. inversion Q; auto.
      + right. right. exists pp. split; [exact Hp|]. eapply well_op. exact W.
    - (* call *) destruct (I1 _ _ _ _ _ _ eq_refl) as [Hn Hg]. eapply winv_upd; [exact HI| |intros; discriminate]. intros q0 past0 wr0 d0 rw0 p0 E. injection E as <- <- <- <- <- <-. split; [exact Hn|]. intros Hwr. destruct (Hg Hwr) as [(-> & -> & E)|[Q|(pp & Hp & W)]].
      + destruct q as [p1 n|x0|x0|q]; cbn [bcode] in E; try (injection E as <-; match goal with H1 : about_to _ = _ |- _ => discriminate H1 end). destruct (code q) as [[wr' p1]|]; [|discriminate]. injection E as -> <-. match goal with H1 : about_to _ = _ |- _ => destruct (quiet_calls _ _ _ (quiet_emb p1) H1) end.
      + match goal with H1 : about_to _ = _ |- _ => destruct (quiet_calls _ _ _ Q H1) end.
      + right. right. exists pp. split; [exact Hp|]. eapply well_back; [eapply path_slash; exact Hp|exact W|eassumption|eapply HB; eassumption].
    - (* commit *) intros j. cbn [b_th b_comm]. destruct (decide (j = i)) as [->|Hj]; [rewrite lookup_insert; split; discriminate|]. rewrite lookup_insert_ne by congruence. destruct (HI j) as [J1 J2]. split; [|exact J2]. intros q0 past0 wr0 d0 rw0 p0 E. destruct (J1 _ _ _ _ _ _ E) as [Hn _]. split; [exact Hn|]. intros ->.
      destruct (HBi j _ E) as [K1 _]. destruct (HBi i _ H) as [K2 _]. cbn [b_lock writes] in K1, K2. rewrite (K1 eq_refl) in K2. specialize (K2 eq_refl). congruence.
    - (* reply *) destruct od; [eapply winv_upd; [exact HI|intros; discriminate|intros; discriminate]|eapply winv_del; exact HI].
    - intros j. cbn [b_th]. rewrite lookup_empty. split; discriminate.
    - intros j. exact (HI j).
  Qed.
  Lemma winv_run w T w' : brun B env w T w' -> binv w -> winv w -> winv w'.
  Proof using HB. clear -HB. induction 1; eauto using binv_step, winv_step. Qed.
  (** what a thread has asked so far is in the labels *)
  Definition doing (i : Z) (q : breq) (tr : trace) (w : bworld Y) : Prop :=
    (b_th w !! i = Some (BWait q) /\ tr = []) \/ (exists wr d rw p, b_th w !! i = Some (BRun q wr tr d rw p)) \/ past_it i w.
  Lemma doing_step i q tr w l w1 : bstep B env w l w1 -> goes_on_with i l -> doing i q tr w -> doing i q (tr ++ future i (bseen l)) w1.
  Proof using Type.
    clear HB. intros Hs Hl Hd.
    assert (Hsame : others_label i l -> b_th w1 !! i = b_th w !! i -> doing i q (tr ++ future i (bseen l)) w1).
    { intros Ho E. rewrite <- (app_nil_r (bseen l)), (future_other i l [] Ho). cbn [future]. rewrite app_nil_r. unfold doing, past_it. rewrite E. exact Hd. }
    destruct Hd as [[E ->]|[(wr0 & d0 & rw0 & p0 & E)|Hp]].
    - destruct Hs; cbn [goes_on_with] in Hl; try contradiction; cbn [b_th] in E;
        try (match goal with H1 : ?mm !! ?j = _ |- _ => destruct (decide (j = i)) as [->|Hj]; [|apply Hsame; [cbn; auto|cbn [b_th]; first [rewrite lookup_insert_ne by exact Hj; reflexivity|rewrite lookup_delete_ne by exact Hj; reflexivity|destruct od; [rewrite lookup_insert_ne by exact Hj; reflexivity|rewrite lookup_delete_ne by exact Hj; reflexivity]]]]; rewrite E in H1; try discriminate H1; try (inversion H1; subst) end); unfold doing, past_it; cbn [b_th bseen future app]; rewrite ?lookup_insert; eauto 10.
    - destruct Hs; cbn [goes_on_with] in Hl; try contradiction; cbn [b_th] in E;
        try (match goal with H1 : ?mm !! ?j = _ |- _ => destruct (decide (j = i)) as [->|Hj]; [|apply Hsame; [cbn; auto|cbn [b_th]; first [rewrite lookup_insert_ne by exact Hj; reflexivity|rewrite lookup_delete_ne by exact Hj; reflexivity|destruct od; [rewrite lookup_insert_ne by exact Hj; reflexivity|rewrite lookup_delete_ne by exact Hj; reflexivity]]]]; rewrite E in H1; try discriminate H1; try (inversion H1; subst) end); try contradiction; unfold doing, past_it; cbn [b_th bseen future app]; rewrite ?lookup_insert, ?Z.eqb_refl, ?app_nil_r; eauto 10.
    - right. right. eapply stage_step; eassumption.
  Qed.
  Lemma future_split i l T : goes_on_with i l -> future i (bseen l ++ T) = future i (bseen l) ++ future i T.
  Proof using Type.
    clear HB. destruct l as [j q|j r|root|j c a|]; cbn [goes_on_with bseen app future]; try reflexivity; intros H; [|contradiction|].
    - apply Z.eqb_neq in H. rewrite H. reflexivity.
    - destruct (j =? i); reflexivity.
  Qed.
  Lemma doing_run i q w T w1 : brun B env w T w1 -> Forall (goes_on_with i) T -> forall tr, doing i q tr w -> doing i q (tr ++ future i T) w1.
  Proof using Type.
    clear HB. induction 1 as [w|w l wm T w1 Hs Hr IH]; intros HF tr Hd; [cbn [future]; rewrite app_nil_r; exact Hd|]. apply Forall_app in HF as [H1 H2].
    assert (Hl : goes_on_with i l) by (destruct l; cbn [bseen] in H1; try (inversion H1; assumption); exact I).
    rewrite (future_split i l T Hl), app_assoc. apply (IH H2). eapply doing_step; eassumption.
  Qed.
End where_.
(** A request asks the backend only about the path its inode has in the committed database, in the
    order of the code; nothing changes this path before its last call.  Other requests ask nothing. *)
Theorem C78_where : forall Y (B : machine Y) env root y0 w0 T1 i q T2 w c a w1, well_typed B -> bopen root y0 = Done w0 ->
  brun B env w0 (T1 ++ XCall i q :: T2) w -> bstep B env w (XBack i c a) w1 -> serving c -> Forall (goes_on_with i) T2 ->
  exists pp, path (b_comm w) (subject q) = Done (Ok pp) /\ asks pp q (future i (T2 ++ [XBack i c a])).
Proof.
  intros Y B env root y0 w0 T1 i q T2 w c a w1 HB Ho H Hs Hc HF.
  assert (I0 : binv w0 /\ winv w0). { unfold bopen in Ho. destruct (open_cache root db_empty) as [[d r]| | |]; try discriminate Ho. injection Ho as <-. split; [intros x t|intros x]; cbn [b_th]; rewrite lookup_empty; [discriminate|split; discriminate]. }
  destruct I0 as [I1 I2]. pose proof (binv_run B env _ _ _ H I1) as J1. pose proof (winv_run B env HB _ _ _ H I1 I2) as J2.
  apply brun_app in H as (m1 & _ & H). destruct (brun_cons _ _ _ _ _ H _ _ eq_refl) as (m2 & m3 & _ & Hcall & H2 & _).
  assert (Hd : doing i q [] m3) by (inversion Hcall; subst; left; cbn [b_th]; rewrite lookup_insert; auto).
  pose proof (doing_run B env i q _ _ _ H2 HF [] Hd) as Hd2. cbn [app] in Hd2.
  assert (Ef : future i (T2 ++ [XBack i c a]) = future i T2 ++ [(c, a)]).
  { clear -HF. induction T2 as [|l T2 IH]; [cbn [app future]; rewrite Z.eqb_refl; reflexivity|]. inversion HF as [|? ? Hl HF']; subst. destruct l as [j q|j r|root|j c0 a0|]; cbn [goes_on_with] in Hl; cbn [app future]; rewrite ?(IH HF'); try reflexivity; [|contradiction|].
    - apply Z.eqb_neq in Hl. rewrite Hl. reflexivity.
    - destruct (j =? i); reflexivity. }
  rewrite Ef. inversion Hs as [| | | | | | |c0 r m k th y i0 q0 wr past d rw p ca f a0 y' Ht Ha Hm| | | | |c0 r m k th y i0 d a0 y' Ht Hm| | | | |]; subst; [|destruct Hc].
  assert (E : q0 = q /\ past = future i T2).
  { destruct Hd2 as [[E _]|[(wr1 & d1 & rw1 & p1 & E)|(l & od & [E|E])]]; cbn [b_th] in E; rewrite Ht in E; try discriminate E. injection E. auto. }
  destruct E as [-> ->]. destruct (J2 i) as [K _]. cbn [b_th] in K. destruct (K _ _ _ _ _ _ Ht) as [Hn Hg]. cbn [b_comm] in Hg |- *.
  destruct (J1 i _ Ht) as [_ K2]. cbn [mute] in K2. destruct wr; [|destruct (quiet_calls _ _ _ K2 Ha)].
  destruct (Hg eq_refl) as [(_ & _ & E)|[Q|(pp & Hp & W)]].
  - destruct q as [p1 n|x0|x0|q]; cbn [bcode] in E; try (injection E as <-; discriminate Ha). destruct (code q) as [[wr' p1]|]; [|discriminate]. injection E as -> <-. destruct (quiet_calls _ _ _ (quiet_emb p1) Ha).
  - destruct (quiet_calls _ _ _ Q Ha).
  - exists pp. split; [exact Hp|]. eapply well_back; [eapply path_slash; exact Hp|exact W|exact Ha|eapply HB; exact Hm].
Qed.
Print Assumptions C78_where.
(** lookup of "d", then a listing of it: opendir of "/d", one entry "d", lstat of "/d/d" *)
Definition cs78w : list choice :=
  [ChCall 2 (BLookup 1 nD); ChStep 2; ChStep 2; ChAnswer 2 (AStat dirA); ChStep 2; ChStep 2; ChStep 2; ChStep 2; ChStep 2;
   ChCall 1 (BOpendir 2); ChStep 1; ChStep 1; ChAnswer 1 (ADir 3); ChStep 1; ChAnswer 1 (AEntry nD)].
Definition check78w : bool :=
  match bopen rootA tt with
  | Done w0 => match bexecs accept w0 cs78w with
    | Some ([XCall i0 _; XBack _ _ _; XRet _ _; XCall i1 (BOpendir x); XBack i2 c2 a2; XBack i3 c3 a3], w) =>
      match bexec accept w (ChAnswer 1 (AStat dirA)) with
      | Some (XBack i4 c4 a4, w1) => bool_decide (i1 = 1 /\ i2 = 1 /\ i3 = 1 /\ i4 = 1 /\ x = 2 /\ c2 = KOpendir pD /\ c3 = KReaddir 3 /\ c4 = KLstat (pD ++ pD))
      | _ => false end
    | _ => false end
  | _ => false
  end.
Example C78_where_sample : exists w0 T1 a2 a3 w a w1, bopen rootA tt = Done w0 /\ brun anything (fun _ _ => False) w0 (T1 ++ XCall 1 (BOpendir 2) :: [XBack 1 (KOpendir pD) a2; XBack 1 (KReaddir 3) a3]) w /\
  bstep anything (fun _ _ => False) w (XBack 1 (KLstat (pD ++ pD)) a) w1 /\ Forall (goes_on_with 1) [XBack 1 (KOpendir pD) a2; XBack 1 (KReaddir 3) a3] /\ well_typed anything /\ serving (KLstat (pD ++ pD)).
Proof.
  assert (H : check78w = true) by (vm_compute; reflexivity). revert H. unfold check78w. destruct (bopen rootA tt) as [w0| | |]; try discriminate. destruct (bexecs accept w0 cs78w) as [[T w]|] eqn:E; [|discriminate]. apply (bexecs_ok anything accept accept_ok) in E.
  destruct T as [|[i0 q| | | |] T]; try discriminate. destruct T as [|[| | |i c0 a0|] T]; try discriminate. destruct T as [|[|ir lr| | |] T]; try discriminate. destruct T as [|[i1 [| |x|]| | | |] T]; try discriminate. destruct T as [|[| | |i2 c2 a2|] T]; try discriminate. destruct T as [|[| | |i3 c3 a3|] T]; try discriminate. destruct T; try discriminate.
  destruct (bexec accept w (ChAnswer 1 (AStat dirA))) as [[[| | |i4 c4 a4|] w1]|] eqn:E2; try discriminate. apply (bexec_ok anything accept accept_ok) in E2. intros H. apply bool_decide_eq_true_1 in H as (-> & -> & -> & -> & -> & -> & -> & ->).
  exists w0, [XCall i0 q; XBack i c0 a0; XRet ir lr], a2, a3, w, a4, w1. split; [reflexivity|]. split; [exact E|]. split; [exact E2|]. split; [repeat constructor|]. split; [|exact I]. intros y c a y' H. exact H.
Qed.
