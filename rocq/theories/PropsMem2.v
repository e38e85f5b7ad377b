(** Property C44: path resolution and listings of the in-memory backend. *)
From Verif Require Export PropsMem.

(** ** Specification *)
(** The node a list of names leads to, from the root. *)
Inductive at_path (m : mem) : list bytes -> Z -> Prop :=
| at_root : at_path m [] ROOT
| at_child comps d a kids ow nm c : at_path m comps d -> m_nodes m !! d = Some (Nd a (BDir kids) ow) -> kids !! nm = Some c -> at_path m (comps ++ [nm]) c.
Definition directory (m : mem) (d : Z) : Prop := exists a kids ow, m_nodes m !! d = Some (Nd a (BDir kids) ow).
Definition has_entry (m : mem) (d : Z) (nm : bytes) : Prop := exists a kids ow c, m_nodes m !! d = Some (Nd a (BDir kids) ow) /\ kids !! nm = Some c.
(** some component is missing in the directory the ones before it lead to *)
Definition missing (m : mem) (comps : list bytes) : Prop := exists pre nm post d, comps = pre ++ nm :: post /\ at_path m pre d /\ directory m d /\ ~ has_entry m d nm.
(** some component, not the last one, leads to something that is not a directory *)
Definition blocked (m : mem) (comps : list bytes) : Prop := exists pre nm post x, comps = pre ++ nm :: post /\ at_path m pre x /\ ~ directory m x.
Definition component (c : bytes) : Prop := c <> [] /\ ~ (47 ∈ c).
(** How absolute paths are written: "/", "/a/b", or with a slash at the end, "/a/b/"; everything
    else is malformed: not starting with a slash, or with an empty component. *)
Inductive spelled : bytes -> list bytes -> bool -> Prop :=
| sp_root : spelled [47] [] false
| sp_plain comps : comps <> [] -> Forall component comps -> spelled (spell comps) comps false
| sp_slash comps : comps <> [] -> Forall component comps -> spelled (spell comps ++ [47]) comps true.
Inductive malformed : bytes -> list bytes -> Prop :=
| mf_start p : (forall r, p <> 47 :: r) -> malformed p []
| mf_empty comps rest : Forall component comps -> malformed (spell comps ++ 47 :: 47 :: rest) comps.

(** ** Facts *)
Local Notation find := InMem.find.
Fixpoint rsv (ns : gmap Z nd) (id : Z) (comps : list bytes) : res Z :=
  match comps with
  | [] => Ok id
  | c :: cs => match ns !! id with
    | Some (Nd _ (BDir kids) _) => match kids !! c with Some k => rsv ns k cs | None => Err ENOENT end
    | _ => Err ENOTDIR
    end
  end.
Lemma to_slash_comp c t : ~ (47 ∈ c) -> (t = [] \/ exists r, t = 47 :: r) -> to_slash (c ++ t) = (c, t).
Proof.
  intros Hc Ht. induction c as [|x c IH]; cbn [app].
  - destruct Ht as [->|[r ->]]; reflexivity.
  - cbn [to_slash]. rewrite elem_of_cons in Hc. destruct (Z.eqb_spec x 47) as [->|]; [naive_solver|]. rewrite IH by naive_solver. reflexivity.
Qed.
Lemma to_slash_split p a b : to_slash p = (a, b) -> ~ (47 ∈ a) /\ (b = [] \/ exists r, b = 47 :: r).
Proof.
  revert a b. induction p as [|x p IH]; intros a b E; cbn in E.
  - injection E as <- <-. split; [apply not_elem_of_nil|auto].
  - destruct (Z.eqb_spec x 47) as [->|Hx].
    + injection E as <- <-. split; [apply not_elem_of_nil|eauto].
    + destruct (to_slash p) as [a' b']. injection E as <- <-. destruct (IH _ _ eq_refl) as [Ha Hb]. split; [rewrite elem_of_cons; naive_solver|exact Hb].
Qed.
Lemma find_step f ns id c t : component c -> (t = [] \/ exists r, t = 47 :: r) -> ns !! id <> None ->
  find (S f) ns id (47 :: c ++ t) = match ns !! id with
    | Some (Nd _ (BDir kids) _) => match kids !! c with None => Done (Err ENOENT) | Some k => match t with [] => Done (Ok k) | _ => find f ns k t end end
    | _ => Done (Err ENOTDIR) end.
Proof.
  intros [Hne Hc] Ht Hid. cbn [InMem.find]. destruct (ns !! id) as [[a [d|d|kids] ow]|]; try reflexivity; [|contradiction]. rewrite Z.eqb_refl. cbn [negb].
  destruct c as [|x c]; [contradiction|]. pose proof (to_slash_comp (x :: c) t Hc Ht) as E. destruct ((x :: c) ++ t) as [|y l] eqn:El; [discriminate El|]. rewrite E. reflexivity.
Qed.
Lemma find_spell next ns comps t : NInv next ns -> Forall component comps -> (t = [] /\ comps <> [] \/ exists r, t = 47 :: r) -> forall id f, ns !! id <> None -> (length (spell comps ++ t) < f)%nat ->
  find f ns id (spell comps ++ t) = match rsv ns id comps with Err e => Done (Err e) | Ok x => match t with [] => Done (Ok x) | _ => find (f - length comps) ns x t end end.
Proof.
  intros HN Hc. revert t. induction Hc as [|c cs Hc Hcs IH]; intros t Ht id f Hid Hf.
  - destruct Ht as [[_ []]|[r ->]]; [reflexivity|]. cbn. rewrite Nat.sub_0_r. reflexivity.
  - destruct f as [|f]; [lia|]. unfold spell in *. cbn [map concat app] in *. rewrite <- app_assoc in *. fold (spell cs) in *.
    assert (Ht' : spell cs ++ t = [] \/ exists r, spell cs ++ t = 47 :: r).
    { destruct cs as [|c2 cs]; [destruct Ht as [[-> _]|[r ->]]; cbn; eauto|]. right. unfold spell. cbn [map concat app]. eauto. }
    rewrite (find_step f ns id c (spell cs ++ t) Hc Ht' Hid). cbn [rsv length Nat.sub]. destruct (ns !! id) as [[a [d|d|kids] ow]|] eqn:En; try reflexivity. destruct (kids !! c) as [k|] eqn:Ek; [|reflexivity].
    assert (Hk : ns !! k <> None) by (destruct (ni_kid _ _ HN _ _ _ _ _ _ En Ek) as (_ & n & -> & _); discriminate).
    destruct cs as [|c2 cs].
    + cbn [rsv spell map concat app length Nat.sub]. rewrite Nat.sub_0_r. destruct t; reflexivity.
    + pose proof (IH t) as IH'. destruct (spell (c2 :: cs) ++ t) as [|y l] eqn:El; [discriminate El|]. rewrite IH'; [reflexivity| |exact Hk|].
      * destruct Ht as [[-> _]|Ht]; [left; split; [reflexivity|discriminate]|auto].
      * cbn [length] in Hf. rewrite app_length in Hf. cbn [length] in *. lia.
Qed.
Lemma at_dir_prefix m pre nm post x : at_path m (pre ++ nm :: post) x -> exists d, at_path m pre d /\ has_entry m d nm.
Proof.
  revert x. induction post as [|y post IH] using rev_ind; intros x H.
  - inversion H as [E|comps d a kids ow nm' c Hd Hn Hk E Ec]; [destruct pre; discriminate|]. apply app_inj_tail in E as [-> ->]. exists d. split; [exact Hd|]. exists a, kids, ow, x. auto.
  - rewrite app_comm_cons, app_assoc in H. inversion H as [E|comps d a kids ow nm' c Hd Hn Hk E Ec]; [destruct pre; discriminate|]. apply app_inj_tail in E as [-> ->]. exact (IH _ Hd).
Qed.
Lemma at_unique m comps x y : at_path m comps x -> at_path m comps y -> x = y.
Proof.
  intros H. revert y. induction H as [|comps d a kids ow nm c Hd IH Hn Hk]; intros y H.
  - inversion H as [|comps d a kids ow nm c ? ? ? E]; [reflexivity|destruct comps; discriminate].
  - inversion H as [E|comps' d' a' kids' ow' nm' c' Hd' Hn' Hk' E]; [destruct comps; discriminate|]. apply app_inj_tail in E as [-> ->]. rewrite <- (IH _ Hd') in Hn'. congruence.
Qed.
(** the function decides the three relations *)
Definition verdict (m : mem) (comps : list bytes) (r : res Z) : Prop :=
  match r with Ok x => at_path m comps x | Err e => e = ENOENT /\ missing m comps \/ e = ENOTDIR /\ blocked m comps end.
Lemma rsv_verdict m next pre id comps : NInv next (m_nodes m) -> at_path m pre id -> verdict m (pre ++ comps) (rsv (m_nodes m) id comps).
Proof.
  intros HN. revert pre id. induction comps as [|c cs IH]; intros pre id Hat; cbn [rsv].
  - rewrite app_nil_r. exact Hat.
  - assert (Hid : forall a b ow, m_nodes m !! id = Some (Nd a b ow) -> (forall k, b <> BDir k) -> ~ directory m id) by (intros a b ow En Hb (a' & k & ow' & En'); rewrite En in En'; injection En' as -> -> ->; exact (Hb k eq_refl)).
    destruct (m_nodes m !! id) as [[a [d|d|kids] ow]|] eqn:En.
    + cbn [verdict]. right. split; [reflexivity|]. exists pre, c, cs, id. split; [reflexivity|]. split; [exact Hat|]. eapply Hid; [reflexivity|discriminate].
    + cbn [verdict]. right. split; [reflexivity|]. exists pre, c, cs, id. split; [reflexivity|]. split; [exact Hat|]. eapply Hid; [reflexivity|discriminate].
    + destruct (kids !! c) as [k|] eqn:Ek.
      * replace (pre ++ c :: cs) with ((pre ++ [c]) ++ cs) by (rewrite <- app_assoc; reflexivity). apply IH. econstructor; eassumption.
      * cbn [verdict]. left. split; [reflexivity|]. exists pre, c, cs, id. split; [reflexivity|]. split; [exact Hat|]. split; [exists a, kids, ow; exact En|]. intros (a' & k' & ow' & c' & En' & Hc). rewrite En in En'. injection En' as <- <- <-. congruence.
    + cbn [verdict]. right. split; [reflexivity|]. exists pre, c, cs, id. split; [reflexivity|]. split; [exact Hat|]. intros (a' & k & ow' & En'). congruence.
Qed.
Lemma at_live m next comps x : NInv next (m_nodes m) -> at_path m comps x -> exists n, m_nodes m !! x = Some n.
Proof.
  intros HN H. destruct H as [|comps d a kids ow nm c Hd Hn Hk].
  - destruct (ni_root _ _ HN) as (a & k & ow & ->). eauto.
  - destruct (ni_kid _ _ HN _ _ _ _ _ _ Hn Hk) as (_ & n & -> & _). eauto.
Qed.
Lemma prefix_cmp (pre pre' : list bytes) nm nm' post post' : pre ++ nm :: post = pre' ++ nm' :: post' -> (pre = pre' /\ nm = nm' /\ post = post') \/ (exists k, pre' = pre ++ nm :: k) \/ (exists k, pre = pre' ++ nm' :: k).
Proof.
  revert pre'. induction pre as [|a pre IH]; intros [|b pre'] E; cbn in E.
  - injection E as -> ->. auto.
  - injection E as -> E. right. left. exists pre'. reflexivity.
  - injection E as -> E. right. right. exists pre. reflexivity.
  - injection E as -> E. destruct (IH _ E) as [(-> & -> & ->)|[[k ->]|[k ->]]]; [auto|right; left; exists k; reflexivity|right; right; exists k; reflexivity].
Qed.

(** ** C44: resolution *)
(** The three cases exclude each other and one of them holds; what a path leads to is unique. *)
Theorem C44_trichotomy : forall lim ord m tr comps, lim < 2 ^ 63 -> mhist lim ord m tr ->
  ((exists x, at_path m comps x) \/ missing m comps \/ blocked m comps) /\
  ~ ((exists x, at_path m comps x) /\ missing m comps) /\ ~ ((exists x, at_path m comps x) /\ blocked m comps) /\ ~ (missing m comps /\ blocked m comps) /\
  (forall x y, at_path m comps x -> at_path m comps y -> x = y).
Proof.
  intros lim ord m tr comps Hlim H. pose proof (mi_nodes _ (ci_inv _ _ (mhist_inv _ _ _ _ Hlim H))) as HN.
  assert (Hent : forall pre d nm post x, at_path m pre d -> at_path m (pre ++ nm :: post) x -> has_entry m d nm) by (intros pre d nm post x Hd Hx; destruct (at_dir_prefix _ _ _ _ _ Hx) as (d' & Hd' & He); rewrite (at_unique _ _ _ _ Hd Hd'); exact He).
  assert (Hdir : forall d nm, has_entry m d nm -> directory m d) by (intros d nm (a & k & ow & c & En & _); exists a, k, ow; exact En).
  split; [|split; [|split; [|split]]].
  - pose proof (rsv_verdict m _ [] ROOT comps HN (at_root m)) as Hv. destruct (rsv (m_nodes m) ROOT comps) as [x|e]; cbn [verdict app] in Hv; [eauto|]. destruct Hv as [[_ Hv]|[_ Hv]]; auto.
  - intros [[x Hx] (pre & nm & post & d & -> & Hd & _ & Hno)]. apply Hno. eapply Hent; eassumption.
  - intros [[x Hx] (pre & nm & post & d & -> & Hd & Hno)]. apply Hno. eapply Hdir. eapply Hent; eassumption.
  - intros [(pre & nm & post & d & -> & Hd & Hdd & Hno) (pre' & nm' & post' & x & E & Hx & Hnd)]. destruct (prefix_cmp _ _ _ _ _ _ E) as [(-> & -> & ->)|[[k ->]|[k ->]]].
    + rewrite (at_unique _ _ _ _ Hd Hx) in Hdd. contradiction.
    + apply Hno. eapply Hent; eassumption.
    + apply Hnd. eapply Hdir. eapply Hent; eassumption.
  - intros x y. apply at_unique.
Qed.
Print Assumptions C44_trichotomy.

(** What [mfind] answers for every string. *)
Definition answer (m : mem) (comps : list bytes) (slash : bool) (r : res Z) : Prop :=
  (exists x, at_path m comps x /\ (slash = true -> directory m x) /\ r = Ok x) \/
  (missing m comps /\ r = Err ENOENT) \/
  ((blocked m comps \/ slash = true /\ exists x, at_path m comps x /\ ~ directory m x) /\ r = Err ENOTDIR).
Lemma mfind_spelled m path comps slash : NInv (m_next m) (m_nodes m) -> spelled path comps slash -> exists r, mfind m path = Done r /\ answer m comps slash r.
Proof.
  intros HN Hs. assert (Hroot : m_nodes m !! ROOT <> None) by (destruct (ni_root _ _ HN) as (a & k & ow & ->); discriminate). unfold mfind. destruct Hs as [|comps Hne Hc|comps Hne Hc].
  - cbn [length InMem.find]. destruct (ni_root _ _ HN) as (a & k & ow & ->). cbn. eexists. split; [reflexivity|]. left. exists ROOT. split; [constructor|]. split; [discriminate|reflexivity].
  - rewrite <- (app_nil_r (spell comps)). rewrite (find_spell _ _ comps [] HN Hc) by (try (rewrite app_nil_r; lia); auto).
    pose proof (rsv_verdict m _ [] ROOT comps HN (at_root m)) as Hv. destruct (rsv (m_nodes m) ROOT comps) as [x|e]; cbn [verdict app] in Hv; eexists; (split; [reflexivity|]).
    + left. exists x. split; [exact Hv|]. split; [discriminate|reflexivity].
    + right. destruct Hv as [[-> Hv]|[-> Hv]]; auto.
  - rewrite (find_spell _ _ comps [47] HN Hc) by (try lia; eauto).
    pose proof (rsv_verdict m _ [] ROOT comps HN (at_root m)) as Hv. destruct (rsv (m_nodes m) ROOT comps) as [x|e]; cbn [verdict app] in Hv.
    + assert (Hl : (length comps <= length (spell comps))%nat) by (clear; unfold spell; induction comps as [|c cs IH]; cbn [map concat length]; [lia|]; rewrite app_length; cbn; lia). destruct (Nat.sub (S (length (spell comps ++ [47]))) (length comps)) as [|f] eqn:Ef; [rewrite app_length in Ef; cbn in Ef; lia|].
      destruct (at_live _ _ _ _ HN Hv) as [[a b ow] Hn]. cbn [InMem.find]. rewrite Hn. destruct b as [d|d|kids]; eexists; (split; [reflexivity|]).
      * right. right. split; [|reflexivity]. right. split; [reflexivity|]. exists x. split; [exact Hv|]. intros (? & ? & ? & ?); congruence.
      * right. right. split; [|reflexivity]. right. split; [reflexivity|]. exists x. split; [exact Hv|]. intros (? & ? & ? & ?); congruence.
      * left. exists x. split; [exact Hv|]. split; [|reflexivity]. intros _. exists a, kids, ow. exact Hn.
    + eexists; (split; [reflexivity|]). right. destruct Hv as [[-> Hv]|[-> Hv]]; auto.
Qed.
Definition bad_answer (m : mem) (comps : list bytes) (e : Z) : Prop :=
  e = EINVAL /\ (exists x, at_path m comps x /\ directory m x) \/ e = ENOENT /\ missing m comps \/ e = ENOTDIR /\ (blocked m comps \/ exists x, at_path m comps x /\ ~ directory m x).
Lemma mfind_malformed m path comps : NInv (m_next m) (m_nodes m) -> malformed path comps -> exists e, mfind m path = Done (Err e) /\ bad_answer m comps e.
Proof.
  intros HN Hs. destruct (ni_root _ _ HN) as (a0 & k0 & ow0 & Hroot). unfold mfind. destruct Hs as [p Hp|comps rest Hc].
  - cbn [InMem.find]. rewrite Hroot. exists EINVAL. split; [|left; split; [reflexivity|]; exists ROOT; split; [constructor|exists a0, k0, ow0; exact Hroot]]. destruct p as [|c p]; [reflexivity|]. destruct (Z.eqb_spec c 47) as [->|]; [destruct (Hp p eq_refl)|reflexivity].
  - rewrite (find_spell _ _ comps (47 :: 47 :: rest) HN Hc) by (try lia; eauto; rewrite Hroot; discriminate).
    pose proof (rsv_verdict m _ [] ROOT comps HN (at_root m)) as Hv. destruct (rsv (m_nodes m) ROOT comps) as [x|e]; cbn [verdict app] in Hv.
    + assert (Hl : (length comps <= length (spell comps))%nat) by (clear; unfold spell; induction comps as [|c cs IH]; cbn [map concat length]; [lia|]; rewrite app_length; cbn; lia). destruct (Nat.sub (S (length (spell comps ++ 47 :: 47 :: rest))) (length comps)) as [|f] eqn:Ef; [rewrite app_length in Ef; cbn in Ef; lia|].
      destruct (at_live _ _ _ _ HN Hv) as [[a b ow] Hn]. cbn [InMem.find]. rewrite Hn. destruct b as [d|d|kids]; eexists; (split; [reflexivity|]).
      * right. right. split; [reflexivity|]. right. exists x. split; [exact Hv|]. intros (? & ? & ? & ?); congruence.
      * right. right. split; [reflexivity|]. right. exists x. split; [exact Hv|]. intros (? & ? & ? & ?); congruence.
      * left. split; [reflexivity|]. exists x. split; [exact Hv|]. exists a, kids, ow. exact Hn.
    + eexists; (split; [reflexivity|]). right. destruct Hv as [[-> Hv]|[-> Hv]]; auto.
Qed.
(** every string is covered *)
Theorem C44_all_strings : forall path, (exists comps slash, spelled path comps slash) \/ (exists comps, malformed path comps).
Proof.
  assert (H : forall n p, (length p <= n)%nat -> p = [] \/ (exists r, p = 47 :: r) -> p = [] \/ (exists comps, comps <> [] /\ Forall component comps /\ p = spell comps) \/ (exists comps, Forall component comps /\ p = spell comps ++ [47]) \/ (exists comps rest, Forall component comps /\ p = spell comps ++ 47 :: 47 :: rest)).
  { induction n as [|n IH]; intros p Hn Hp; [destruct p; [auto|cbn in Hn; lia]|]. destruct Hp as [->|[r ->]]; [auto|]. right. destruct (to_slash r) as [c t] eqn:E. pose proof (to_slash_length _ _ _ E) as [Hlen ->]. destruct (to_slash_split _ _ _ E) as [Hc Ht]. destruct c as [|x c].
    - cbn [app]. destruct Ht as [->|[t' ->]].
      + right. left. exists []. split; [constructor|reflexivity].
      + right. right. exists [], t'. split; [constructor|reflexivity].
    - assert (Hcomp : component (x :: c)) by (split; [discriminate|exact Hc]). destruct (IH t) as [->|[(comps & Hne & HF & ->)|[(comps & HF & ->)|(comps & rest & HF & ->)]]]; [cbn [length] in Hn; rewrite app_length in Hn; lia|exact Ht| | | |].
      + left. exists [x :: c]. split; [discriminate|]. split; [auto|]. unfold spell. cbn. rewrite !app_nil_r. reflexivity.
      + left. exists ((x :: c) :: comps). split; [discriminate|]. split; [auto|]. reflexivity.
      + right. left. exists ((x :: c) :: comps). split; [auto|]. unfold spell. cbn [map concat]. cbn. rewrite app_assoc. reflexivity.
      + right. right. exists ((x :: c) :: comps), rest. split; [auto|]. unfold spell. cbn [map concat]. cbn. rewrite app_assoc. reflexivity. }
  intros path. destruct path as [|c p]; [right; exists []; apply mf_start; discriminate|]. destruct (Z.eq_dec c 47) as [->|Hc]; [|right; exists []; apply mf_start; intros r E; injection E; intros; contradiction].
  destruct (H (length (47 :: p)) (47 :: p)) as [E|[(comps & Hne & HF & E)|[(comps & HF & E)|(comps & rest & HF & E)]]]; [lia|eauto|discriminate E| | |]; rewrite E.
  - left. exists comps, false. constructor; assumption.
  - left. destruct comps as [|c cs]; [exists [], false; constructor|]. exists (c :: cs), true. constructor; [discriminate|exact HF].
  - right. exists comps. constructor. exact HF.
Qed.
Print Assumptions C44_all_strings.

(** *** the four calls that take a path *)
Definition by_path (o : mop) : option bytes := match o with MLstat p | MReadlink p | MOpen p | MOpendir p => Some p | _ => None end.
(** the answer "error e" of such a call *)
Definition failed (o : mop) (e : Z) : mres := match o with MLstat _ => MStat (Err e) | MReadlink _ => MBytes (Err e) | _ => MHandle (Err e) end.
(** what they answer when the path leads to the node [x] *)
Definition of_node (m : mem) (o : mop) (x : Z) (n : nd) (r : mres) (m' : mem) : Prop :=
  match o, nd_body n with
  | MLstat _, _ => r = MStat (Ok (nd_attr n)) /\ m' = m
  | MReadlink _, BLink dest => r = MBytes (Ok dest) /\ m' = m
  | MReadlink _, _ => r = MBytes (Err EINVAL) /\ m' = m
  | MOpen _, BFile _ => exists h, r = MHandle (Ok h) /\ m_fh m !! h = None /\ m_nodes m' = m_nodes m /\ m_dh m' = m_dh m /\ m_conn m' = m_conn m /\ m_fh m' = <[h := x]> (m_fh m)
  | MOpen _, BDir _ => r = MHandle (Err EISDIR) /\ m' = m
  | MOpen _, BLink _ => r = MHandle (Err EINVAL) /\ m' = m
  | MOpendir _, BDir _ => exists h, r = MHandle (Ok h) /\ m_dh m !! h = None /\ m_nodes m' = m_nodes m /\ m_fh m' = m_fh m /\ m_conn m' = m_conn m /\ (exists dh, m_dh m' = <[h := dh]> (m_dh m) /\ dh_node dh = x)
  | MOpendir _, _ => r = MHandle (Err ENOTDIR) /\ m' = m
  | _, _ => False
  end.
Lemma by_path_step lim ord m o path : MInv m -> m_conn m = true -> by_path o = Some path -> exists r, mfind m path = Done r /\
  match r with
  | Err e => mstep lim ord m o = Done (failed o e, m)
  | Ok x => forall n, m_nodes m !! x = Some n -> exists r m', mstep lim ord m o = Done (r, m') /\ of_node m o x n r m'
  end.
Proof.
  intros HI Hc Hp. destruct (mfind_total m path HI) as (r & Er & Hl). exists r. split; [exact Er|]. pose proof (mi_hnext _ HI (m_hnext m) ltac:(lia)) as [Hf Hd].
  destruct r as [x|e].
  - intros n Hn. destruct o; cbn [by_path] in Hp; try discriminate Hp; injection Hp as ->; cbn [mstep]; unfold with_node; rewrite Hc; cbn [negb]; rewrite Er; cbn [obind]; rewrite Hn; destruct n as [a [d|d|k] ow]; cbn [nd_body of_node]; eexists _, _; (split; [reflexivity|]); try (split; reflexivity).
    + eexists. repeat (split; [reflexivity || assumption || (symmetry; assumption)|]). reflexivity.
    + eexists. split; [reflexivity|]. cbn [m_nodes m_fh m_conn m_dh]. repeat (split; [reflexivity || assumption || (symmetry; assumption)|]). eexists. split; reflexivity.
  - destruct o; cbn [by_path] in Hp; try discriminate Hp; injection Hp as ->; cbn [mstep failed]; unfold with_node; rewrite Hc; cbn [negb]; rewrite Er; reflexivity.
Qed.
Theorem C44_disconnected : forall lim ord m o path, m_conn m = false -> by_path o = Some path -> mstep lim ord m o = Done (failed o ENOTCONN, m).
Proof. intros lim ord m o path Hc Hp. destruct o; cbn [by_path] in Hp; try discriminate Hp; cbn [mstep failed]; unfold with_node; rewrite Hc; reflexivity. Qed.
Section C44.
  Context (lim : Z) (ord : gmap bytes Z -> list bytes) (m : mem) (tr : list mev) (Hlim : lim < 2 ^ 63) (H : mhist lim ord m tr) (o : mop) (path : bytes) (comps : list bytes) (Hc : m_conn m = true) (Hp : by_path o = Some path).
  Theorem C44_found : forall slash x, spelled path comps slash -> at_path m comps x -> (slash = true -> directory m x) ->
    exists n r m', m_nodes m !! x = Some n /\ mstep lim ord m o = Done (r, m') /\ of_node m o x n r m'.
  Proof.
    intros slash x Hs Hx Hd. pose proof (ci_inv _ _ (mhist_inv _ _ _ _ Hlim H)) as HI. destruct (C44_trichotomy lim ord m tr comps Hlim H) as (_ & T1 & T2 & T3 & _). destruct (mfind_spelled m path comps slash (mi_nodes _ HI) Hs) as (r & Er & Ha). destruct (by_path_step lim ord m o path HI Hc Hp) as (r' & Er' & Hr). rewrite Er in Er'. injection Er' as <-.
    destruct Ha as [(y & Hy & Hyd & ->)|[[Ha ->]|[[Ha|[-> (y & Hy & Hyd)]] ->]]].
    - rewrite (at_unique _ _ _ _ Hy Hx) in Hr. destruct (at_live _ _ _ _ (mi_nodes _ HI) Hx) as [n Hn]. destruct (Hr n Hn) as (r & m' & E & Ho). eauto 6.
    - exfalso. apply T1. eauto.
    - exfalso. apply T2. eauto.
    - exfalso. apply Hyd. rewrite (at_unique _ _ _ _ Hy Hx). auto.
  Qed.
  Theorem C44_missing : forall slash, spelled path comps slash -> missing m comps -> mstep lim ord m o = Done (failed o ENOENT, m).
  Proof.
    intros slash Hs Hx. pose proof (ci_inv _ _ (mhist_inv _ _ _ _ Hlim H)) as HI. destruct (C44_trichotomy lim ord m tr comps Hlim H) as (_ & T1 & T2 & T3 & _). destruct (mfind_spelled m path comps slash (mi_nodes _ HI) Hs) as (r & Er & Ha). destruct (by_path_step lim ord m o path HI Hc Hp) as (r' & Er' & Hr). rewrite Er in Er'. injection Er' as <-.
    destruct Ha as [(y & Hy & Hyd & ->)|[[Ha ->]|[[Ha|[-> (y & Hy & Hyd)]] ->]]]; [exfalso; eauto|exact Hr|exfalso; eauto|exfalso; eauto].
  Qed.
  Theorem C44_blocked : forall slash, spelled path comps slash -> (blocked m comps \/ slash = true /\ exists x, at_path m comps x /\ ~ directory m x) -> mstep lim ord m o = Done (failed o ENOTDIR, m).
  Proof.
    intros slash Hs Hx. pose proof (ci_inv _ _ (mhist_inv _ _ _ _ Hlim H)) as HI. destruct (C44_trichotomy lim ord m tr comps Hlim H) as (_ & T1 & T2 & T3 & _). destruct (mfind_spelled m path comps slash (mi_nodes _ HI) Hs) as (r & Er & Ha). destruct (by_path_step lim ord m o path HI Hc Hp) as (r' & Er' & Hr). rewrite Er in Er'. injection Er' as <-.
    destruct Ha as [(y & Hy & Hyd & ->)|[[Ha ->]|[Ha ->]]]; [exfalso| |exact Hr].
    - destruct Hx as [Hx|(-> & x & Hx & Hnd)]; [eauto|]. apply Hnd. rewrite (at_unique _ _ _ _ Hx Hy). auto.
    - exfalso. destruct Hx as [Hx|(-> & x & Hx & Hnd)]; eauto.
  Qed.
  (** Paths that are not well-formed never lead anywhere: EINVAL, unless the part before the empty
      component already fails. *)
  Theorem C44_malformed : malformed path comps -> exists e, mstep lim ord m o = Done (failed o e, m) /\ bad_answer m comps e.
  Proof.
    intros Hm. pose proof (ci_inv _ _ (mhist_inv _ _ _ _ Hlim H)) as HI. destruct (mfind_malformed m path comps (mi_nodes _ HI) Hm) as (e & Er & Ha). destruct (by_path_step lim ord m o path HI Hc Hp) as (r' & Er' & Hr). rewrite Er in Er'. injection Er' as <-. eauto.
  Qed.
End C44.
Print Assumptions C44_found.
(** "Exactly when", for lstat and plain paths. *)
Theorem C44_lstat_exact : forall lim ord m tr path comps e, lim < 2 ^ 63 -> mhist lim ord m tr -> spelled path comps false -> mstep lim ord m (MLstat path) = Done (MStat (Err e), m) <->
  if m_conn m then e = ENOENT /\ missing m comps \/ e = ENOTDIR /\ blocked m comps else e = ENOTCONN.
Proof.
  intros lim ord m tr path comps e Hlim H Hs. destruct (m_conn m) eqn:Ec.
  - destruct (C44_trichotomy lim ord m tr comps Hlim H) as ([[x Hx]|[Hx|Hx]] & T1 & T2 & T3 & _).
    + destruct (C44_found lim ord m tr Hlim H (MLstat path) path comps Ec eq_refl false x Hs Hx) as (n & r & m' & _ & E & [-> ->]); [discriminate|]. rewrite E. split; [discriminate|]. intros [[_ ?]|[_ ?]]; exfalso; eauto.
    + rewrite (C44_missing lim ord m tr Hlim H (MLstat path) path comps Ec eq_refl false Hs Hx). cbn. split; [intros E; injection E as <-; auto|]. intros [[-> _]|[_ ?]]; [reflexivity|exfalso; eauto].
    + rewrite (C44_blocked lim ord m tr Hlim H (MLstat path) path comps Ec eq_refl false Hs (or_introl Hx)). cbn. split; [intros E; injection E as <-; auto|]. intros [[_ ?]|[-> _]]; [exfalso; eauto|reflexivity].
  - rewrite (C44_disconnected lim ord m (MLstat path) path Ec eq_refl). cbn. split; [intros E; injection E as <-; auto|intros ->; reflexivity].
Qed.
Print Assumptions C44_lstat_exact.

(** ** C44: listings *)
(** [names_read m h l r m']: readdir is called until it does not give a name; [l] are the names. *)
Inductive names_read lim ord : mem -> Z -> list bytes -> Z -> mem -> Prop :=
| nr_end m h e m' : mstep lim ord m (MReaddir h) = Done (MName (Err e), m') -> names_read lim ord m h [] e m'
| nr_name m h nm m1 l e m' : mstep lim ord m (MReaddir h) = Done (MName (Ok nm), m1) -> names_read lim ord m1 h l e m' -> names_read lim ord m h (nm :: l) e m'.
(** The iteration order of an unordered_map is unknown, but each name is visited once. *)
Definition enumerates (ord : gmap bytes Z -> list bytes) : Prop := forall kids, ord kids ≡ₚ (map_to_list kids).*1.
Theorem C44_listing : forall lim ord m tr path comps slash m', lim < 2 ^ 63 -> enumerates ord -> mhist lim ord m tr -> spelled path comps slash -> forall h, mstep lim ord m (MOpendir path) = Done (MHandle (Ok h), m') ->
  exists names m2, names_read lim ord m' h (DOT :: DOTDOT :: names) 0 m2 /\ NoDup names /\ (forall nm, nm ∈ names <-> exists x, at_path m (comps ++ [nm]) x) /\ m_nodes m2 = m_nodes m /\ m_fh m2 = m_fh m.
Proof.
  intros lim ord m tr path comps slash m' Hlim Ho H Hs h E. pose proof (ci_inv _ _ (mhist_inv _ _ _ _ Hlim H)) as HI. cbn [mstep] in E. unfold with_node in E. destruct (m_conn m) eqn:Ec; cbn [negb] in E; [|discriminate E].
  destruct (mfind_spelled m path comps slash (mi_nodes _ HI) Hs) as (r & Er & Ha). rewrite Er in E. cbn [obind] in E. destruct Ha as [(x & Hx & _ & ->)|[[_ ->]|[_ ->]]]; try discriminate E.
  destruct (m_nodes m !! x) as [[a [d|d|kids] ow]|] eqn:En; cbn [nd_body] in E; try discriminate E. injection E as <- <-.
  set (dm := fun st rest => Mem (m_nodes m) (m_next m) (m_conn m) (m_fh m) (<[m_hnext m := Dirh x st rest kids]> (m_dh m)) (m_hnext m + 1)).
  assert (Hi : forall rest, names_read lim ord (dm SIter rest) (m_hnext m) rest 0 (dm SIter [])).
  { induction rest as [|nm rest IH].
    - apply nr_end. unfold dm. cbn [mstep m_dh]. rewrite lookup_insert. cbn [m_nodes]. rewrite En, decide_True by reflexivity. reflexivity.
    - apply nr_name with (dm SIter rest); [|exact IH]. unfold dm. cbn [mstep m_dh]. rewrite lookup_insert. cbn [m_nodes m_next m_conn m_fh m_hnext]. rewrite En, decide_True by reflexivity. rewrite insert_insert. reflexivity. }
  exists (ord kids), (dm SIter []). split; [|split; [|split; [|split; reflexivity]]].
  - rewrite <- Ec. apply nr_name with (dm SDotdot (ord kids)); [unfold dm; cbn [mstep m_dh]; rewrite lookup_insert; cbn [m_nodes m_next m_conn m_fh m_hnext]; rewrite insert_insert; reflexivity|].
    apply nr_name with (dm SIter (ord kids)); [unfold dm; cbn [mstep m_dh]; rewrite lookup_insert; cbn [m_nodes m_next m_conn m_fh m_hnext]; rewrite insert_insert; reflexivity|]. apply Hi.
  - rewrite (Ho kids). apply NoDup_fst_map_to_list.
  - intros nm. rewrite (Ho kids). rewrite elem_of_list_fmap. split.
    + intros ([nm' c] & -> & Hel). apply elem_of_map_to_list in Hel. exists c. econstructor; eassumption.
    + intros [c Hc]. inversion Hc as [E|comps' d' a' kids' ow' nm' c' Hd' Hn' Hk' E]; [destruct comps; discriminate|]. apply app_inj_tail in E as [-> ->]. rewrite (at_unique _ _ _ _ Hd' Hx) in Hn'. rewrite En in Hn'. injection Hn' as <- <- <-. exists (nm, c). split; [reflexivity|]. apply elem_of_map_to_list. exact Hk'.
Qed.
Print Assumptions C44_listing.
