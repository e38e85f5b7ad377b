(** Properties C45, C50 and C51: the local backend. *)
From Verif Require Export Local.

(** ** Specification: what a path means, word by word *)
(** The strings between the slashes. *)
Fixpoint parts (p : bytes) : list bytes :=
  match p with
  | [] => [[]]
  | c :: p => if c =? 47 then [] :: parts p else match parts p with h :: t => (c :: h) :: t | [] => [[c]] end
  end.
(** One step of the walk: "" and "." stay, ".." goes up, everything else goes down. *)
Definition walk1 (at_ : list bytes) (c : bytes) : list bytes :=
  if decide (c = []) then at_ else if decide (c = DOT) then at_ else if decide (c = DOTDOT) then removelast at_ else at_ ++ [c].
Definition walk_parts (at_ : list bytes) (cs : list bytes) : list bytes := fold_left walk1 cs at_.
(** Where the path [p] leads, seen from the working directory [cwd], if nothing on the way is a
    symbolic link. *)
Definition leads_to (cwd : list bytes) (p : bytes) : list bytes := walk_parts (if is_absolute p then [] else cwd) (parts p).
Definition real (c : bytes) : bool := negb (bool_decide (c = [])) && negb (bool_decide (c = DOT)).

Lemma parts_app a b : parts (a ++ 47 :: b) = parts a ++ parts b.
Proof.
  induction a as [|c a IH]; [reflexivity|]. cbn [app parts]. destruct (c =? 47); [rewrite IH; reflexivity|]. rewrite IH. destruct (parts a) as [|h t] eqn:E; [|reflexivity].
  exfalso. clear - E. destruct a as [|x a]; cbn in E; [discriminate|]. destruct (x =? 47); [discriminate|]. destruct (parts a); discriminate.
Qed.
Lemma walk_empty at_ : walk1 at_ [] = at_.
Proof. reflexivity. Qed.
Lemma append_leads cwd root inner : is_absolute inner = false -> leads_to cwd (append_path root inner) = walk_parts (leads_to cwd root) (parts inner).
Proof.
  intros Hi. destruct root as [|c root]; [cbn [append_path]; unfold leads_to; rewrite Hi; reflexivity|]. unfold append_path. destruct (List.last (c :: root) 0 =? 47) eqn:El.
  - apply Z.eqb_eq in El. destruct (exists_last (l := c :: root)) as (r & x & E); [discriminate|]. rewrite E in El. rewrite last_last in El. subst x. unfold leads_to, walk_parts.
    assert (Ea : is_absolute ((c :: root) ++ inner) = is_absolute (c :: root)) by reflexivity. rewrite Ea. rewrite E. rewrite <- app_assoc. cbn [app]. rewrite !parts_app. rewrite !fold_left_app. cbn [parts fold_left]. rewrite walk_empty. reflexivity.
  - unfold leads_to, walk_parts. cbn [app is_absolute]. change (c :: root ++ 47 :: inner) with ((c :: root) ++ 47 :: inner). rewrite parts_app, fold_left_app. reflexivity.
Qed.
Lemma walk_down at_ cs : Forall (fun c => c <> DOTDOT) cs -> walk_parts at_ cs = at_ ++ List.filter real cs.
Proof.
  intros H. revert at_. induction H as [|c cs Hc Hcs IH]; intros at_; cbn [List.filter]; [rewrite app_nil_r; reflexivity|]. unfold walk_parts in *. cbn [fold_left]. rewrite IH. unfold walk1, real.
  destruct (decide (c = [])) as [->|H0]; [reflexivity|]. rewrite bool_decide_eq_false_2 by exact H0. destruct (decide (c = DOT)) as [->|H1]; [reflexivity|]. rewrite bool_decide_eq_false_2 by exact H1. destruct (decide (c = DOTDOT)) as [|_]; [contradiction|]. cbn [negb andb]. rewrite <- app_assoc. reflexivity.
Qed.

(** ** C45 *)
(** Exactly which strings are rejected. *)
Theorem C45_rejected : forall root s e, map_path root s = Err e <-> e = EINVAL /\ (s = [] \/ (exists c r, s = c :: r /\ c <> 47) \/ exists r, s = 47 :: 47 :: r).
Proof.
  intros root s e. unfold map_path. destruct s as [|c s].
  - split; [intros E; injection E as <-; auto|intros [-> _]; reflexivity].
  - destruct (Z.eqb_spec c 47) as [->|Hc]; cbn [negb].
    + destruct s as [|c2 s]; cbn [is_absolute].
      * split; [discriminate|]. intros [_ [E|[(? & ? & E & Hn)|(? & E)]]]; [discriminate E|injection E; intros; subst; contradiction|discriminate E].
      * destruct (Z.eqb_spec c2 47) as [->|Hc2].
        -- split; [intros E; injection E as <-; eauto 6|intros [-> _]; reflexivity].
        -- split; [discriminate|]. intros [_ [E|[(? & ? & E & Hn)|(? & E)]]]; [discriminate E|injection E; intros; subst; contradiction|injection E; intros; subst; contradiction].
    + split; [intros E; injection E as <-; split; [reflexivity|]; right; left; eauto|]. intros [-> _]. reflexivity.
Qed.
(** Every path that is accepted means: from the root, walk the components of the path. *)
Theorem C45_mapped : forall cwd root s p, map_path root s = Ok p -> leads_to cwd p = walk_parts (leads_to cwd root) (parts s).
Proof.
  intros cwd root s p E. unfold map_path in E. destruct s as [|c s]; [discriminate E|]. destruct (Z.eqb_spec c 47) as [->|]; cbn [negb] in E; [|discriminate E]. destruct (is_absolute s) eqn:Ea; [discriminate E|]. injection E as <-. rewrite append_leads by exact Ea. reflexivity.
Qed.
(** Without ".." this stays below the root. *)
Theorem C45_under_root_partial : forall cwd root s p, map_path root s = Ok p -> Forall (fun c => c <> DOTDOT) (parts s) -> leads_to cwd p = leads_to cwd root ++ List.filter real (parts s).
Proof. intros cwd root s p E H. rewrite (C45_mapped cwd root s p E). apply walk_down. exact H. Qed.
Print Assumptions C45_under_root_partial.
(** In terms of the backend's calls: their results depend on files under the root only. *)
Definition under (cwd : list bytes) (root p : bytes) : Prop := exists rest, leads_to cwd p = leads_to cwd root ++ rest.
Definition agree_under (cwd : list bytes) (root : bytes) (o o' : os) : Prop := forall p, under cwd root p ->
  os_lstat o p = os_lstat o' p /\ (forall f m, os_open o p f m = os_open o' p f m) /\ os_opendir o p = os_opendir o' p /\ os_readlink o p = os_readlink o' p.
Lemma cstr_id b : ~ (0 ∈ b) -> cstr b = b.
Proof. induction b as [|c b IH]; intros H; [reflexivity|]. rewrite elem_of_cons in H. cbn. destruct (Z.eqb_spec c 0) as [->|]; [naive_solver|]. rewrite IH by naive_solver. reflexivity. Qed.
Theorem C45_confined_partial : forall cwd root s o o', ~ (0 ∈ root) -> ~ (0 ∈ s) -> Forall (fun c => c <> DOTDOT) (parts s) -> agree_under cwd root o o' ->
  local_lstat o root s = local_lstat o' root s /\ (forall f m, local_open o root s f m = local_open o' root s f m) /\ local_opendir o root s = local_opendir o' root s /\ local_readlink o root s = local_readlink o' root s.
Proof.
  intros cwd root s o o' Hr Hs Hp Ha. unfold local_lstat, local_open, local_opendir, local_readlink. destruct (map_path root s) as [p|e] eqn:E; [|repeat split].
  assert (Hn : ~ (0 ∈ p)).
  { unfold map_path in E. destruct s as [|c s]; [discriminate E|]. rewrite elem_of_cons in Hs. destruct (negb _); [discriminate E|]. destruct (is_absolute s); [discriminate E|]. injection E as <-. unfold append_path. destruct root as [|x root]; [naive_solver|]. destruct (_ =? _); rewrite !elem_of_app, ?elem_of_list_singleton; naive_solver. }
  rewrite cstr_id by exact Hn. destruct (Ha p) as (E1 & E2 & E3 & E4); [eexists; apply C45_under_root_partial; eassumption|]. rewrite E1, E3, E4. auto.
Qed.
Print Assumptions C45_confined_partial.
(** With ".." the path leaves the root, and with a NUL byte even without such a component. *)
Definition ROOTDIR : bytes := [47; 115].                                         (* "/s" *)
Theorem C45_refuted : exists p, map_path ROOTDIR [47; 46; 46; 47; 101] = Ok p /\ leads_to [] p = [[101]] /\ ~ under [] ROOTDIR p.   (* "/../e" *)
Proof. eexists. split; [vm_compute; reflexivity|]. split; [vm_compute; reflexivity|]. intros [rest E]. vm_compute in E. discriminate E. Qed.
Theorem C45_nul_refuted : exists s p, ~ (DOTDOT ∈ parts s) /\ map_path ROOTDIR s = Ok p /\ ~ under [] ROOTDIR (cstr p).              (* "/..\0" *)
Proof.
  exists [47; 46; 46; 0]. eexists. split; [|split; [vm_compute; reflexivity|]].
  - rewrite elem_of_list_In. cbn. unfold DOTDOT. intuition discriminate.
  - intros [rest E]. vm_compute in E. discriminate E.
Qed.
Example C45_sample_holds : exists p, map_path ROOTDIR [47; 97; 47; 46; 47; 98; 47] = Ok p /\ Forall (fun c => c <> DOTDOT) (parts [47; 97; 47; 46; 47; 98; 47]) /\ leads_to [] p = [[115]; [97]; [98]].   (* "/a/./b/" *)
Proof. eexists. split; [vm_compute; reflexivity|]. split; [|vm_compute; reflexivity]. cbn. repeat (constructor; [discriminate|]). constructor. Qed.

(** ** C50: readlink of the local backend *)
(** The full claim would be: the target if the path is a symbolic link, an error otherwise. *)
Definition C50_full : Prop := forall o root s p st, map_path root s = Ok p -> os_lstat o (cstr p) = Ok st -> 0 <= a_size st ->
  match os_readlink o (cstr p) with
  | Ok t => local_readlink o root s = Done (Ok t)
  | Err e => local_readlink o root s = Done (Err e)
  end.
(** It holds for links whose st_size is their length, or one less. *)
Theorem C50_readlink_partial : forall o root s p st t, map_path root s = Ok p -> os_lstat o (cstr p) = Ok st -> os_readlink o (cstr p) = Ok t -> Z.of_nat (length t) <= a_size st + 1 -> local_readlink o root s = Done (Ok t).
Proof.
  intros o root s p st t Ep Es Er Hl. unfold local_readlink. rewrite Ep, Es, Er. rewrite firstn_all2 by lia. reflexivity.
Qed.
(** In general: cut off after st_size + 1 bytes; what is there is a prefix. *)
Theorem C50_prefix : forall o root s p st t, map_path root s = Ok p -> os_lstat o (cstr p) = Ok st -> 0 <= a_size st -> os_readlink o (cstr p) = Ok t ->
  exists l, local_readlink o root s = Done (Ok l) /\ (exists k, t = l ++ k) /\ Z.of_nat (length l) = Z.min (a_size st + 1) (Z.of_nat (length t)).
Proof.
  intros o root s p st t Ep Es Hs Er. unfold local_readlink. rewrite Ep, Es, Er. eexists. split; [reflexivity|]. split; [eexists; symmetry; apply firstn_skipn|]. rewrite firstn_length. lia.
Qed.
Theorem C50_errors : forall o root s p e, map_path root s = Ok p -> os_lstat o (cstr p) = Err e -> local_readlink o root s = Done (Err e).
Proof. intros o root s p e Ep Es. unfold local_readlink. rewrite Ep, Es. reflexivity. Qed.
(** A path that exists and is not a symbolic link: an exception instead of an error. *)
Theorem C50_throws : forall o root s p st e, map_path root s = Ok p -> os_lstat o (cstr p) = Ok st -> os_readlink o (cstr p) = Err e -> local_readlink o root s = Throw.
Proof. intros o root s p st e Ep Es Er. unfold local_readlink. rewrite Ep, Es, Er. reflexivity. Qed.
(** /proc/self and the like: st_size is 0. *)
Definition procfs : os := Os (fun _ => Ok (Attrs 0 0 0 0 (0, 0) (0, 0) (0, 0) S_IFLNK)) (fun _ _ _ => Err ENOENT) (fun _ => Err ENOENT) (fun p => if decide (p = [47; 115; 47; 97]) then Ok [52; 50] else Err EINVAL).
Theorem C50_refuted : ~ C50_full.
Proof.
  intros H. specialize (H procfs ROOTDIR [47; 97] [47; 115; 47; 97] (Attrs 0 0 0 0 (0, 0) (0, 0) (0, 0) S_IFLNK) eq_refl eq_refl ltac:(cbn; lia)). vm_compute in H. discriminate H.
Qed.
Theorem C50_refuted_cut : local_readlink procfs ROOTDIR [47; 97] = Done (Ok [52]) /\ os_readlink procfs [47; 115; 47; 97] = Ok [52; 50].
Proof. split; vm_compute; reflexivity. Qed.

(** ** C51: descriptors *)
(** What the users of the objects do: objects are new, descriptors valid, close() is called at most
    once on each. *)
Definition sound_op (ops : list fop) (o : fop) : Prop :=
  match o with
  | FOpen x fd => 0 < fd /\ forall fd', FOpen x fd' ∉ ops
  | FClose x _ => forall ok', FClose x ok' ∉ ops
  | FDestroy _ _ => True
  end.
(** [fhist step s ops calls]: from no objects, [ops] were performed; [calls] are the calls of
    ::close (::closedir), as pairs of the object and the descriptor (directory pointer). *)
Inductive fhist (step : fds -> fop -> outcome (list (Z * Z) * fds)) : fds -> list fop -> list (Z * Z) -> Prop :=
| fh_start : fhist step ∅ [] []
| fh_step s ops calls o c s' : fhist step s ops calls -> sound_op ops o -> step s o = Done (c, s') -> fhist step s' (ops ++ [o]) (calls ++ c).
(** the descriptors object [x] closed *)
Definition calls_of (x : Z) (calls : list (Z * Z)) : list Z := omap (fun c => if fst c =? x then Some (snd c) else None) calls.
(** The full claim: every object closes the descriptor it was given, at most once, and nothing
    else; and it does so when it is destroyed. *)
Definition closes_own (ops : list fop) (calls : list (Z * Z)) : Prop := forall x fd, FOpen x fd ∈ ops ->
  (calls_of x calls = [] \/ calls_of x calls = [fd]) /\ (forall ok, FDestroy x ok ∈ ops -> calls_of x calls = [fd]).
Definition C51_full : Prop := forall s ops calls, fhist file_step s ops calls -> closes_own ops calls.

Section Fate.
  Context (step : fds -> fop -> outcome (list (Z * Z) * fds)) (after : bool -> Z -> list Z).
  Context (Sopen : forall s x fd, step s (FOpen x fd) = Done ([], <[x := fd]> s)).
  Context (Sclose : forall s x ok, step s (FClose x ok) = match s !! x with None => Crash | Some fd => Done ([(x, fd)], <[x := if ok then 0 else fd]> s) end).
  Context (Sdestroy : forall s x ok fd, s !! x = Some fd -> (exists c, step s (FDestroy x ok) = Done (c, delete x s) /\ forall y, y <> x -> calls_of y c = [])).
  Context (Sdnone : forall s x ok, s !! x = None -> step s (FDestroy x ok) = Crash).
  Context (Sfd : forall s x ok fd c, 0 < fd -> s !! x = Some fd -> step s (FDestroy x ok) = Done (c, delete x s) -> calls_of x c = [fd]).
  Context (Safter : forall (s : fds) x ok (b : bool) fd c, 0 < fd -> s !! x = Some (if b then 0 else fd) -> step s (FDestroy x ok) = Done (c, delete x s) -> calls_of x c = after b fd).
  Definition unopened (x : Z) (ops : list fop) := forall o, o ∈ ops -> match o with FOpen y _ | FClose y _ | FDestroy y _ => y <> x end.
  Definition noclose (x : Z) (ops : list fop) := forall ok, FClose x ok ∉ ops.
  Definition closedok (x : Z) (ok : bool) (ops : list fop) := FClose x ok ∈ ops /\ forall ok', FClose x ok' ∈ ops -> ok' = ok.
  Definition nodestroy (x : Z) (ops : list fop) := forall ok, FDestroy x ok ∉ ops.
  Definition fate (x : Z) (s : fds) (ops : list fop) (calls : list (Z * Z)) : Prop :=
    (unopened x ops /\ s !! x = None /\ calls_of x calls = []) \/
    exists fd, FOpen x fd ∈ ops /\ (forall fd', FOpen x fd' ∈ ops -> fd' = fd) /\ 0 < fd /\
      (noclose x ops /\ nodestroy x ops /\ s !! x = Some fd /\ calls_of x calls = [] \/
       (exists ok, closedok x ok ops /\ nodestroy x ops /\ s !! x = Some (if ok then 0 else fd) /\ calls_of x calls = [fd]) \/
       (noclose x ops /\ ~ nodestroy x ops /\ s !! x = None /\ calls_of x calls = [fd]) \/
       (exists ok, closedok x ok ops /\ ~ nodestroy x ops /\ s !! x = None /\ calls_of x calls = fd :: after ok fd)).
  Lemma calls_app x a b : calls_of x (a ++ b) = calls_of x a ++ calls_of x b.
  Proof. apply omap_app. Qed.
  Lemma other_frame x s ops calls o c s' : (match o with FOpen y _ | FClose y _ | FDestroy y _ => y <> x end) -> s' !! x = s !! x -> calls_of x c = [] -> fate x s ops calls -> fate x s' (ops ++ [o]) (calls ++ c).
  Proof.
    intros Ho Es Ec F. assert (Hin : forall q, (match q with FOpen y _ | FClose y _ | FDestroy y _ => y = x end) -> q ∈ ops ++ [o] <-> q ∈ ops). { intros q Hq. rewrite elem_of_app, elem_of_list_singleton. split; [intros [? | -> ]; [assumption|destruct o; contradiction]|auto]. }
    assert (Hnc : noclose x (ops ++ [o]) <-> noclose x ops) by (unfold noclose; split; intros Hx ok; specialize (Hx ok); rewrite ?Hin in *; auto).
    assert (Hnd : nodestroy x (ops ++ [o]) <-> nodestroy x ops) by (unfold nodestroy; split; intros Hx ok; specialize (Hx ok); rewrite ?Hin in *; auto).
    assert (Hcl : forall ok, closedok x ok (ops ++ [o]) <-> closedok x ok ops) by (intros ok; unfold closedok; rewrite Hin by reflexivity; split; intros [H1 H2]; (split; [exact H1|]); intros ok' Hok; apply H2; apply Hin; auto).
    unfold fate. rewrite calls_app, Ec, app_nil_r, Es. destruct F as [(Hu & Hs & Hc)|(fd & Hf & Hu & Hpos & F)].
    - left. split; [|auto]. intros q Hq. apply elem_of_app in Hq as [Hq|Hq]; [apply Hu; exact Hq|]. apply elem_of_list_singleton in Hq. subst q. exact Ho.
    - right. exists fd. split; [apply Hin; [reflexivity|exact Hf]|]. split; [intros fd' Hf'; apply Hu; apply Hin in Hf'; [exact Hf'|reflexivity]|]. split; [exact Hpos|].
      rewrite Hnc, Hnd. destruct F as [F|[(ok & F)|[F|(ok & F)]]]; [auto|right; left; exists ok; rewrite Hcl, Hnd; exact F|auto|right; right; right; exists ok; rewrite Hcl, Hnd; exact F].
  Qed.
  Lemma fates s ops calls : fhist step s ops calls -> forall x, fate x s ops calls.
  Proof.
    induction 1 as [|s ops calls o c s' H IH Ho E]; intros x; [left; split; [intros o Ho; apply elem_of_nil in Ho; contradiction|split; [apply lookup_empty|reflexivity]]|].
    destruct o as [y fd|y ok|y ok].
    - rewrite Sopen in E. injection E as <- <-. destruct (Z.eq_dec y x) as [->|Hne]; [|apply (other_frame x s); [exact Hne|apply lookup_insert_ne; exact Hne|reflexivity|apply IH]].
      destruct Ho as [Hpos Hno]. right. exists fd. assert (Hu : unopened x ops /\ calls_of x calls = []). { destruct (IH x) as [(Hu & _ & Hc)|(fd' & Hf & _)]; [auto|]. destruct (Hno fd' Hf). } destruct Hu as [Hu Hc].
      split; [apply elem_of_app; right; apply elem_of_list_singleton; reflexivity|]. split; [intros fd' Hf; apply elem_of_app in Hf as [Hf|Hf]; [destruct (Hno fd' Hf)|apply elem_of_list_singleton in Hf; injection Hf as ->; reflexivity]|]. split; [exact Hpos|].
      left. split; [intros ok Hin; apply elem_of_app in Hin as [Hin|Hin]; [exact (Hu _ Hin eq_refl)|apply elem_of_list_singleton in Hin; discriminate Hin]|]. split; [intros ok Hin; apply elem_of_app in Hin as [Hin|Hin]; [exact (Hu _ Hin eq_refl)|apply elem_of_list_singleton in Hin; discriminate Hin]|].
      split; [apply lookup_insert|]. rewrite app_nil_r. exact Hc.
    - rewrite Sclose in E. destruct (s !! y) as [v|] eqn:Ev; [|discriminate E]. injection E as <- <-. destruct (Z.eq_dec y x) as [->|Hne]; [|apply (other_frame x s); [exact Hne|apply lookup_insert_ne; exact Hne|cbn; rewrite (proj2 (Z.eqb_neq y x) Hne); reflexivity|apply IH]].
      cbn [sound_op] in Ho. right. destruct (IH x) as [(_ & Hs & _)|(fd & Hf & Hu & Hpos & F)]; [congruence|]. exists fd. split; [apply elem_of_app; auto|]. split; [intros fd' Hf'; apply Hu; apply elem_of_app in Hf' as [Hf'|Hf']; [exact Hf'|apply elem_of_list_singleton in Hf'; discriminate Hf']|]. split; [exact Hpos|].
      destruct F as [(Hn & Hd & Hs & Hc)|[(ok0 & [Hin _] & _)|[(_ & _ & Hs & _)|(ok0 & _ & _ & Hs & _)]]]; [|destruct (Ho ok0 Hin)|congruence|congruence]. rewrite Ev in Hs. injection Hs as ->.
      right. left. exists ok. split; [split; [apply elem_of_app; right; apply elem_of_list_singleton; reflexivity|intros ok' Hin; apply elem_of_app in Hin as [Hin|Hin]; [destruct (Ho ok' Hin)|apply elem_of_list_singleton in Hin; injection Hin as ->; reflexivity]]|].
      split; [intros ok' Hin; apply elem_of_app in Hin as [Hin|Hin]; [exact (Hd _ Hin)|apply elem_of_list_singleton in Hin; discriminate Hin]|]. split; [apply lookup_insert|]. rewrite calls_app, Hc. cbn. rewrite Z.eqb_refl. reflexivity.
    - destruct (s !! y) as [v|] eqn:Ev; [|rewrite (Sdnone _ _ _ Ev) in E; discriminate E]. destruct (Sdestroy s y ok v Ev) as (c' & E' & Hc'). rewrite E' in E. injection E as <- <-. destruct (Z.eq_dec y x) as [->|Hne]; [|apply (other_frame x s); [exact Hne|apply lookup_delete_ne; exact Hne|apply Hc'; congruence|apply IH]].
      right. destruct (IH x) as [(_ & Hs & _)|(fd & Hf & Hu & Hpos & F)]; [congruence|]. exists fd. split; [apply elem_of_app; auto|]. split; [intros fd' Hf'; apply Hu; apply elem_of_app in Hf' as [Hf'|Hf']; [exact Hf'|apply elem_of_list_singleton in Hf'; discriminate Hf']|]. split; [exact Hpos|].
      assert (Hdes : ~ nodestroy x (ops ++ [FDestroy x ok])) by (intros Hd; apply (Hd ok); apply elem_of_app; right; apply elem_of_list_singleton; reflexivity).
      destruct F as [(Hn & Hd & Hs & Hc)|[(ok0 & [Hin Hin'] & _ & Hs & Hc)|[(_ & _ & Hs & _)|(ok0 & _ & _ & Hs & _)]]]; [| |congruence|congruence].
      + right. right. left. split; [intros ok' Hin; apply elem_of_app in Hin as [Hin|Hin]; [exact (Hn _ Hin)|apply elem_of_list_singleton in Hin; discriminate Hin]|]. split; [exact Hdes|]. split; [apply lookup_delete|]. rewrite calls_app, Hc. exact (Sfd s x ok fd c' Hpos Hs E').
      + right. right. right. exists ok0. split; [split; [apply elem_of_app; auto|intros ok' Hi; apply elem_of_app in Hi as [Hi|Hi]; [auto|apply elem_of_list_singleton in Hi; discriminate Hi]]|]. split; [exact Hdes|]. split; [apply lookup_delete|]. rewrite calls_app, Hc. cbn [app]. f_equal. exact (Safter s x ok ok0 fd c' Hpos Hs E').
  Qed.
End Fate.
Lemma calls_one x y fd : calls_of y [(x, fd)] = if x =? y then [fd] else [].
Proof. cbn. destruct (x =? y); reflexivity. Qed.
Lemma file_fates s ops calls : fhist file_step s ops calls -> forall x, fate (fun ok fd => [if ok then 0 else fd]) x s ops calls.
Proof.
  apply fates.
  - reflexivity.
  - intros s0 x ok. cbn. destruct (s0 !! x); reflexivity.
  - intros s0 x ok fd Hs. cbn. rewrite Hs. eexists. split; [reflexivity|]. intros y Hy. destruct (0 <=? fd); [|reflexivity]. rewrite calls_one, (proj2 (Z.eqb_neq x y)) by congruence. reflexivity.
  - intros s0 x ok Hs. cbn. rewrite Hs. reflexivity.
  - intros s0 x ok fd c Hp Hs E. cbn in E. rewrite Hs in E. rewrite (proj2 (Z.leb_le 0 fd)) in E by lia. injection E as <-. rewrite calls_one, Z.eqb_refl. reflexivity.
  - intros s0 x ok b fd c Hp Hs E. cbn in E. rewrite Hs in E. rewrite (proj2 (Z.leb_le 0 _)) in E by (destruct b; lia). injection E as <-. rewrite calls_one, Z.eqb_refl. reflexivity.
Qed.
Lemma dir_fates s ops calls : fhist dir_step s ops calls -> forall x, fate (fun ok fd => if ok then [] else [fd]) x s ops calls.
Proof.
  apply fates.
  - reflexivity.
  - intros s0 x ok. cbn. destruct (s0 !! x); reflexivity.
  - intros s0 x ok fd Hs. cbn. rewrite Hs. eexists. split; [reflexivity|]. intros y Hy. destruct (fd =? 0); [reflexivity|]. rewrite calls_one, (proj2 (Z.eqb_neq x y)) by congruence. reflexivity.
  - intros s0 x ok Hs. cbn. rewrite Hs. reflexivity.
  - intros s0 x ok fd c Hp Hs E. cbn in E. rewrite Hs in E. rewrite (proj2 (Z.eqb_neq fd 0)) in E by lia. injection E as <-. rewrite calls_one, Z.eqb_refl. reflexivity.
  - intros s0 x ok b fd c Hp Hs E. cbn in E. rewrite Hs in E. destruct b; [rewrite Z.eqb_refl in E; injection E as <-; reflexivity|]. rewrite (proj2 (Z.eqb_neq fd 0)) in E by lia. injection E as <-. rewrite calls_one, Z.eqb_refl. reflexivity.
Qed.
(** True of LocalFile as long as close() is not called. *)
Theorem C51_file_partial : forall s ops calls, fhist file_step s ops calls -> (forall x ok, FClose x ok ∉ ops) -> closes_own ops calls.
Proof.
  intros s ops calls H Hn x fd Hf. destruct (file_fates _ _ _ H x) as [(Hu & _)|(fd' & _ & Hu & _ & F)]; [destruct (Hu _ Hf eq_refl)|]. rewrite <- (Hu _ Hf) in F. destruct F as [(_ & Hd & _ & ->)|[(ok & [Hc _] & _)|[(_ & _ & _ & ->)|(ok & [Hc _] & _)]]]; [|destruct (Hn _ _ Hc)|auto|destruct (Hn _ _ Hc)].
  split; [auto|]. intros ok Hok. destruct (Hd _ Hok).
Qed.
Print Assumptions C51_file_partial.
(** With close() it never holds once the object is gone: the destructor closes descriptor 0 after a
    close() that succeeded, and the same descriptor again after one that failed. *)
Theorem C51_file_exact : forall s ops calls x fd ok ok', fhist file_step s ops calls -> FOpen x fd ∈ ops -> FClose x ok ∈ ops -> FDestroy x ok' ∈ ops -> calls_of x calls = [fd; if ok then 0 else fd].
Proof.
  intros s ops calls x fd ok ok' H Hf Hc Hd. destruct (file_fates _ _ _ H x) as [(Hu & _)|(fd' & _ & Hu & _ & F)]; [destruct (Hu _ Hf eq_refl)|]. rewrite <- (Hu _ Hf) in F. destruct F as [(Hn & _)|[(ok1 & _ & Hn & _)|[(Hn & _)|(ok1 & [_ Hu1] & _ & _ & ->)]]]; [destruct (Hn _ Hc)|destruct (Hn _ Hd)|destruct (Hn _ Hc)|]. rewrite (Hu1 _ Hc). reflexivity.
Qed.
Print Assumptions C51_file_exact.
Fixpoint frun (step : fds -> fop -> outcome (list (Z * Z) * fds)) (s : fds) (calls : list (Z * Z)) (ops : list fop) : outcome (fds * list (Z * Z)) :=
  match ops with [] => Done (s, calls) | o :: ops => dlet (c, s') := step s o in frun step s' (calls ++ c) ops end.
Fixpoint sound_ops (pre ops : list fop) : Prop := match ops with [] => True | o :: r => sound_op pre o /\ sound_ops (pre ++ [o]) r end.
Lemma frun_hist step ops : forall pre s calls, fhist step s pre calls -> sound_ops pre ops -> match frun step s calls ops with Done (s', calls') => fhist step s' (pre ++ ops) calls' | _ => True end.
Proof.
  induction ops as [|o ops IH]; intros pre s calls H Ho; cbn [frun]; [rewrite app_nil_r; exact H|]. destruct Ho as [Ho Hos]. destruct (step s o) as [[c s']| | |] eqn:E; cbn [obind]; try exact I.
  specialize (IH (pre ++ [o]) s' (calls ++ c) (fh_step _ _ _ _ _ _ _ H Ho E) Hos). rewrite <- app_assoc in IH. exact IH.
Qed.
Ltac sound_list := cbn; repeat split; try lia; try (intros ? Hin; apply elem_of_list_In in Hin; cbn in Hin; intuition discriminate).
Definition bad_ops : list fop := [FOpen 1 7; FClose 1 true; FDestroy 1 true].
Lemma bad_hist : exists s, fhist file_step s bad_ops [(1, 7); (1, 0)].
Proof. pose proof (frun_hist file_step bad_ops [] ∅ [] (fh_start _)) as H. eexists. apply H. sound_list. Qed.
Theorem C51_refuted : ~ C51_full.
Proof. intros H. destruct bad_hist as [s0 Hs]. destruct (H _ _ _ Hs 1 7) as [[E|E] _]; [apply elem_of_list_In; cbn; auto|vm_compute in E; discriminate E|vm_compute in E; discriminate E]. Qed.
(** LocalDir resets its pointer to null: true if ::closedir does not fail. *)
Theorem C51_dir : forall s ops calls, fhist dir_step s ops calls -> (forall x, FClose x false ∉ ops) -> closes_own ops calls.
Proof.
  intros s ops calls H Hn x fd Hf. destruct (dir_fates _ _ _ H x) as [(Hu & _)|(fd' & _ & Hu & _ & F)]; [destruct (Hu _ Hf eq_refl)|]. rewrite <- (Hu _ Hf) in F. destruct F as [(_ & Hd & _ & ->)|[(ok & [Hc _] & _ & _ & ->)|[(_ & _ & _ & ->)|(ok & [Hc _] & _ & _ & ->)]]].
  - split; [auto|]. intros ok Hok. destruct (Hd _ Hok).
  - auto.
  - auto.
  - destruct ok; [auto|destruct (Hn _ Hc)].
Qed.
Print Assumptions C51_dir.
Definition two_objs : list fop := [FOpen 1 7; FOpen 2 8; FDestroy 2 true; FDestroy 1 true].
Example C51_sample_holds : (exists s, fhist file_step s two_objs [(2, 8); (1, 7)]) /\ (forall x ok, FClose x ok ∉ two_objs) /\ (exists s, fhist dir_step s bad_ops [(1, 7)]) /\ (forall x, FClose x false ∉ bad_ops).
Proof.
  split; [|split; [|split]].
  - pose proof (frun_hist file_step two_objs [] ∅ [] (fh_start _)) as H. eexists. apply H. sound_list.
  - intros x ok Hin. apply elem_of_list_In in Hin. cbn in Hin. intuition discriminate.
  - pose proof (frun_hist dir_step bad_ops [] ∅ [] (fh_start _)) as H. eexists. apply H. sound_list.
  - intros x Hin. apply elem_of_list_In in Hin. cbn in Hin. intuition discriminate.
Qed.
