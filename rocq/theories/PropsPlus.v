(** File system property C64: listing a directory in pieces with readdirplus. *)
From Verif Require Export FsPlusStream FsPlusAlone PropsFs2.

(** A client that reads the directory [x] with readdirplus from the start to the empty reply, each
    buffer larger than every entry, while anything else happens between its requests and between
    the two halves of each of them - but [x] keeps a path.  It gets "." and "..", and then each
    entry at most once: only entries which the directory had when one of the requests began, with
    the number and the attributes they had then, and which still exist (perhaps elsewhere) when
    the reply is sent; and every entry which the directory had throughout. *)
Theorem C64_stream : forall W s k h hs x l, hist W s k (h ++ hs) -> stream_plus x 0 hs l ->
  (forall e, e ∈ hs -> asked (ev_s e) x <> None) ->
  (forall e e' id size off, e ∈ hs -> e' ∈ hs -> ev_q e = QPlusBegin id x -> ev_q e' = QPlusRun id size off -> roomy_plus (s_db (ev_s e)) x size) ->
  NoDup (map kp_ino l) /\
  exists p l2, (forall e, e ∈ hs -> parent_of (s_db (ev_s e)) x = Ok p) /\ map id_name (map kp_ent l) = dots x p ++ map id_name (map kp_ent l2) /\
    (forall y, y ∈ l2 -> kp_node y = kp_ino y /\ kp_attr_ino y = kp_ino y /\ ke_off (kp_ent y) = kp_ino y /\
      exists e e' id size off a, e ∈ hs /\ e' ∈ hs /\ ev_q e = QPlusBegin id x /\ ev_q e' = QPlusRun id size off /\
        lookup (s_db (ev_s e)) x (ke_name (kp_ent y)) = Ok (kp_ino y) /\ getattr (s_db (ev_s e)) (kp_ino y) = Ok a /\ carries y a /\
        (ke_name (kp_ent y) <> DOT -> ke_name (kp_ent y) <> DOTDOT -> exists a', getattr (s_db (ev_s e')) (kp_ino y) = Ok a')) /\
    (forall c n, (forall e, e ∈ hs -> lookup (s_db (ev_s e)) x n = Ok c) -> exists y, y ∈ l2 /\ kp_ino y = c /\ ke_name (kp_ent y) = n).
Proof.
  intros W s k h hs x l H Hst Has Hroom. destruct (hist_split h hs _ _ _ H) as (W0 & s0 & k0 & H0 & Hg).
  assert (He0 : exists e0 es, hs = e0 :: es /\ ev_s e0 = s0) by (destruct Hg; [inversion Hst|eauto]). destruct He0 as (e0 & es & -> & <-).
  pose proof (Has e0 ltac:(left)) as Hn0. destruct (asked (ev_s e0) x) as [pp|] eqn:Ea; [|contradiction]. clear Hn0. destruct (hist_inv _ _ _ _ H0) as (HF0 & _). pose proof (dr_inv _ _ _ (fi_dr _ _ _ HF0)) as Hi0.
  destruct (asked_parent _ _ _ Hi0 Ea) as (Hh0 & p & Hp & Hp0 & _). assert (Hx : u64 x) by (apply has_inode_iff in Hh0 as [i Hi']; apply (inode_range _ _ _ Hi0 Hi')).
  assert (Hu : under (s_db (ev_s e0)) x p) by (eapply under_start; eassumption).
  assert (Hev : forall e, e ∈ e0 :: es -> Inv (s_db (ev_s e)) /\ parent_of (s_db (ev_s e)) x = Ok p /\ has_inode (s_db (ev_s e)) x).
  { intros e He. destruct (goes_under _ _ _ _ _ _ _ Hg _ _ _ H0 Hu e He) as [Hie Hue]. split; [exact Hie|]. pose proof (Has e He) as Hn. destruct (asked (ev_s e) x) as [pe|] eqn:Ee; [|contradiction]. destruct (under_parent _ _ _ _ Hie Hue Ee) as (? & _ & ?). auto. }
  destruct (stream_plus_ok x p 0 (e0 :: es) l Hst ltac:(unfold u64; lia) _ _ _ _ _ _ _ H0 Hg Hu Has Hroom) as (A1 & A2 & A3).
  assert (Hnz : Forall (fun c => c <> 0) (map kp_ino l)) by (rewrite Forall_forall; intros c Hc; apply elem_of_list_fmap in Hc as (y & -> & Hy); apply (A2 y Hy)).
  split; [eapply sorted_nodup; eassumption|].
  assert (Hroot := parent_root _ _ _ Hi0 Hp Hp0).
  assert (Hki : map ke_ino (map kp_ent l) = map kp_ino l) by (rewrite map_map; reflexivity).
  destruct (sorted_shape x p (map kp_ino l) A1 Hnz) as (rest & El & Hrest).
  { apply (A3 x DOT); [|left; reflexivity]. intros e He. left. auto. }
  { intros Hne. apply (A3 p DOTDOT); [|left; reflexivity]. intros e He. right. left. auto. }
  assert (Hfun : forall y n, y ∈ l -> (forall e, e ∈ e0 :: es -> inl (s_db (ev_s e)) x p (kp_ino y) n) -> ke_name (kp_ent y) = n).
  { intros y n Hy Hn. destruct (A2 y Hy) as (_ & _ & _ & _ & _ & e & e' & He & _ & _ & Hie & Hpe & Hin & _). eapply inl_fun; [exact Hie|exact Hpe|exact Hin|]. apply Hn. exact He. }
  assert (Hsh : exists l2, map id_name (map kp_ent l) = dots x p ++ map id_name (map kp_ent l2) /\ map kp_ino l2 = rest /\ (forall y, y ∈ l2 -> y ∈ l) /\ (forall y, y ∈ l -> y ∈ l2 \/ kp_ino y = x \/ kp_ino y = p)).
  { unfold dots. rewrite <- Hroot. destruct l as [|y1 l]; [discriminate El|]. cbn [map] in El. injection El as E1 El. assert (N1 : ke_name (kp_ent y1) = DOT). { apply Hfun; [left|]. intros e He. left. auto. }
    destruct (Z.eqb_spec p x) as [->|Hpx].
    - exists l. cbn [map app] in *. split; [unfold id_name at 1; unfold kp_ino in E1; rewrite E1, N1; reflexivity|]. split; [exact El|]. split; [intros y Hy; right; exact Hy|]. intros y Hy. apply elem_of_cons in Hy as [->|Hy]; auto.
    - cbn [app] in El. destruct l as [|y2 l]; [discriminate El|]. cbn [map] in El. injection El as E2 El. assert (N2 : ke_name (kp_ent y2) = DOTDOT). { apply Hfun; [right; left|]. intros e He. right. left. auto. }
      exists l. cbn [map app]. unfold kp_ino in E1, E2. split; [unfold id_name at 1 2; rewrite E1, N1, E2, N2; reflexivity|]. split; [exact El|]. split; [intros y Hy; right; right; exact Hy|]. intros y Hy. apply elem_of_cons in Hy as [->|Hy]; [auto|]. apply elem_of_cons in Hy as [->|Hy]; auto. }
  destruct Hsh as (l2 & E2 & Er & Hsub & Hsup). exists p, l2. split; [intros e He; apply (Hev e He)|]. split; [exact E2|].
  assert (Hne : forall y, y ∈ l2 -> kp_ino y <> x /\ kp_ino y <> p). { intros y Hy. rewrite Forall_forall in Hrest. apply Hrest. rewrite <- Er. apply elem_of_list_fmap. eauto. }
  split.
  - intros y Hy. destruct (A2 y (Hsub y Hy)) as (_ & _ & B1 & B2 & B3 & e & e' & He & He' & (id & size & o & Q1 & Q2) & Hie & Hpe & Hin & Hsp & a & Hga & Hca). destruct (Hne y Hy) as [N1 N2]. do 3 (split; [assumption|]).
    assert (Hlk : lookup (s_db (ev_s e)) x (ke_name (kp_ent y)) = Ok (kp_ino y)) by (apply (inl_lookup _ x p); auto).
    exists e, e', id, size, o, a. do 4 (split; [assumption|]). split; [exact Hlk|]. split; [exact Hga|]. split; [exact Hca|].
    intros D1 D2. destruct Hsp as [[Hsp|Hsp]|[a' Ha']]; [contradiction..|eauto].
  - intros c n Hc. assert (Hinl : forall e, e ∈ e0 :: es -> inl (s_db (ev_s e)) x p c n). { intros e He. destruct (Hev e He) as (Hie & _). right. right. apply elem_dir_entries. apply lookup_treei; [assumption..|]. apply Hc. exact He. }
    assert (Hck : u64 c /\ 1 <= x < c /\ p < c). { destruct (Hev e0 ltac:(left)) as (Hie & Hpe & _). destruct (child_facts _ _ _ c n Hie Hpe) as (? & ? & ? & _); [|auto]. apply elem_dir_entries. apply lookup_treei; [assumption..|]. apply Hc. left. }
    assert (Hcl : c ∈ map kp_ino l) by (apply (A3 c n); [exact Hinl|left; reflexivity]). apply elem_of_list_fmap in Hcl as (y & -> & Hy). exists y.
    destruct (Hsup y Hy) as [Hy2|[?|?]]; [|lia..]. split; [exact Hy2|]. split; [reflexivity|]. apply Hfun; [exact Hy|exact Hinl].
Qed.
Print Assumptions C64_stream.

(** A buffer of more than 656 bytes is larger than every entry of every directory. *)
Theorem C64_room : forall W s k h x size, hist W s k h -> u64 x -> 656 < size -> roomy_plus (s_db s) x size.
Proof. intros W s k h x size H Hx Hs. destruct (hist_inv _ _ _ _ H) as (HF & _). apply roomy_plus_all; [exact (dr_inv _ _ _ (fi_dr _ _ _ HF))|assumption..]. Qed.
Print Assumptions C64_room.

(** A client alone with the file system: if it may make more requests than the directory has
    entries, it comes to an end, and what it got is ".", ".." and exactly the children, with their
    attributes.  The last reply is the empty one even if the directory is not completely known
    (C40_plus_refuted). *)
Theorem C64_alone : forall W s k h x sizes names, hist W s k h -> W + plus_cost sizes + 3 < 2 ^ 63 -> asked s x <> None ->
  (forall n c, lookup (s_db s) x n = Ok c -> n ∈ names) -> Forall (roomy_plus (s_db s) x) sizes -> (length names + 2 < length sizes)%nat ->
  exists p l l2, read_all_plus s x 0 sizes = Some (l, RBuf []) /\ parent_of (s_db s) x = Ok p /\
    map id_name (map kp_ent l) = dots x p ++ l2 /\ NoDup (l2.*1) /\ NoDup (l2.*2) /\
    (forall c n, (c, n) ∈ l2 <-> lookup (s_db s) x n = Ok c) /\
    forall y, y ∈ l -> kp_node y = kp_ino y /\ kp_attr_ino y = kp_ino y /\ ke_off (kp_ent y) = kp_ino y /\ exists a, getattr (s_db s) (kp_ino y) = Ok a /\ carries y a.
Proof.
  intros W s k h x sizes names H HW3 Has Hnames Hr Hlen. pose proof (plus_cost_nonneg sizes) as Hcn. destruct (hist_inv _ _ _ _ H) as (HF & HA & _). pose proof (dr_inv _ _ _ (fi_dr _ _ _ HF)) as Hi.
  pose proof Has as Has'. destruct (asked s x) as [pp|] eqn:Ea; [|contradiction]. clear Has'. destruct (asked_parent _ _ _ Hi Ea) as (Hh & p0 & Hp' & Hp0 & _). assert (Hx : u64 x) by (apply has_inode_iff in Hh as [i Hi']; apply (inode_range _ _ _ Hi Hi')).
  destruct (scan_total (s_db s) x 0 Hi) as (L & e & Hs & _). destruct (scan_rest (s_db s) x p0 0 L e Hi Hx Hh Hp' Hp0 Hs ltac:(unfold u64; lia)) as (-> & Hsorted & Hall & Hcov).
  assert (Has2 : asked s x <> None) by congruence.
  pose (sizes' := replicate (length L + length names + 3) 600).
  assert (Hr' : Forall (roomy (s_db s) x) sizes'). { apply Forall_forall. intros z Hz. apply elem_of_replicate in Hz as [-> _]. apply roomy_all; [exact Hi|exact Hx|lia]. }
  assert (Hl' : length sizes' = (length L + length names + 3)%nat) by apply replicate_length.
  destruct (C39_alone W s k h x sizes' names H ltac:(lia) Has2 Hnames Hr' ltac:(lia)) as (p & l & l2 & E1 & Hp & Esh & Hn1 & Hn2 & Hiff).
  rewrite (read_all_ok W s k h x sizes' 0 L H ltac:(lia) Has2 Hr' ltac:(unfold u64; lia) Hs ltac:(lia)) in E1. injection E1 as <-.
  assert (Hke : map kp_ent (map want_plus (map to_bent L)) = map want (map to_bent L)) by (rewrite !map_map; reflexivity).
  exists p, (map want_plus (map to_bent L)), l2. rewrite Hke. split; [|do 5 (split; [assumption|])].
  - apply (read_all_plus_ok x sizes W s k h 0 L H HW3 Has2 Hr ltac:(unfold u64; lia) Hs).
    assert (HL : length L = length (dots x p ++ l2)) by (rewrite <- Esh, !map_length; reflexivity). rewrite HL, app_length.
    assert (Hle : (length (l2.*2) <= length names)%nat). { apply submseteq_length, NoDup_submseteq; [exact Hn2|]. intros n Hn. apply elem_of_list_fmap in Hn as ([c n'] & -> & Hn). apply Hiff in Hn. exact (Hnames _ _ Hn). }
    rewrite fmap_length in Hle. assert ((length (dots x p) <= 2)%nat) by (unfold dots; destruct (x =? ROOT_INO); cbn; lia). lia.
  - intros y Hy. apply elem_of_list_fmap in Hy as (b & -> & Hb). apply elem_of_list_fmap in Hb as ([[c n] a] & -> & Hc). destruct (Hall _ _ _ Hc) as (Hin & _ & Hga). destruct (inl_has _ _ _ _ _ Hi Hp' Hp0 Hx Hh Hin) as (_ & _ & Hcu).
    unfold kp_ino. cbn [to_bent want_plus want kp_ent kp_node kp_attr_ino ke_ino ke_off ke_name be_ino be_off be_name be_attr]. unfold w64 at 1. rewrite Z.mod_small by exact Hcu. do 3 (split; [reflexivity|]). exists a. split; [exact Hga|]. repeat split.
Qed.
Print Assumptions C64_alone.
Example C64_alone_sample : hist (sW qs_read) (sS qs_read) (sK qs_read) (sH qs_read) /\ sW qs_read + plus_cost [161; 400; 161; 1000; 200; 657] + 3 < 2 ^ 63 /\ asked (sS qs_read) 2 <> None /\ roomy_plus (s_db (sS qs_read)) 2 657 /\
  match read_all_plus (sS qs_read) 2 0 [161; 400; 161; 1000; 200; 657] with Some (l, r) => map id_name (map kp_ent l) = [(2, DOT); (1, DOTDOT); (4, nF); (5, nG)] /\ r = RBuf [] | None => False end.
Proof.
  assert (H : hist (sW qs_read) (sS qs_read) (sK qs_read) (sH qs_read)) by (apply sess_hist; qs_ok). split; [exact H|]. split; [vm_compute; reflexivity|].
  split; [assert (Hb : asked (sS qs_read) 2 = Some [47; 100]) by (vm_compute; reflexivity); rewrite Hb; discriminate|].
  split; [|vm_compute; auto]. apply (C64_room _ _ _ _ _ _ H); [unfold u64; lia|lia].
Qed.

(** Sample: a directory "d" with two children, read in pieces of 330, 4096 and 200 bytes; within
    the first request the file "f" at the top disappears, within the second one "d/f" changes
    and a request for the top directory begins. *)
Definition qs_sp : list request :=
  [QPlusBegin 7 2; QLookup changed 1 nF; QPlusRun 7 330 0; QPlusBegin 8 2; QPlusBegin 9 1; QLookup changed 2 nF; QPlusRun 8 4096 1; QPlusBegin 7 2; QPlusRun 7 200 5].
Definition hs_sp : list event := drop 3 (sH (qs_read ++ qs_sp)).
(** the first run of the request [id] with offset [off] before it begins again *)
Fixpoint split_run (id off : Z) (hs : list event) : option (list event * (fstate * Z * bytes) * list event) :=
  match hs with
  | [] => None
  | Ev s q sent :: hs =>
    let skip := match split_run id off hs with Some (mid, r, rest) => Some (Ev s q sent :: mid, r, rest) | None => None end in
    match q with
    | QPlusRun id' size off' => match sent with [RBuf b] => if (id' =? id) && (off' =? off) then Some ([], (s, size, b), hs) else skip | _ => skip end
    | QPlusBegin id' _ => if id' =? id then None else skip
    | _ => skip
    end
  end.
Lemma split_run_ok id off hs : forall mid s size b rest, split_run id off hs = Some (mid, (s, size, b), rest) ->
  hs = mid ++ Ev s (QPlusRun id size off) [RBuf b] :: rest /\ forall e z, e ∈ mid -> ev_q e <> QPlusBegin id z.
Proof.
  induction hs as [|[s0 q sent] hs IH]; intros mid s size b rest E; [discriminate|]. cbn [split_run] in E.
  assert (Hskip : (forall z, q <> QPlusBegin id z) -> match split_run id off hs with Some (mid, r, rest) => Some (Ev s0 q sent :: mid, r, rest) | None => None end = Some (mid, (s, size, b), rest) ->
    Ev s0 q sent :: hs = mid ++ Ev s (QPlusRun id size off) [RBuf b] :: rest /\ forall e z, e ∈ mid -> ev_q e <> QPlusBegin id z).
  { intros Hq E'. destruct (split_run id off hs) as [[[mid' [[? ?] ?]] rest']|] eqn:Es; [|discriminate]. injection E' as <- -> -> -> ->. destruct (IH _ _ _ _ _ eq_refl) as [-> Hm]. split; [reflexivity|]. intros e z He. apply elem_of_cons in He as [->|He]; [apply Hq|apply Hm, He]. }
  destruct q as [| | | | | | | |id' x'|id' size' off'| |]; try (apply Hskip; [discriminate|exact E]).
  - destruct (Z.eqb_spec id' id) as [|Hne]; [discriminate|]. apply Hskip; [congruence|exact E].
  - destruct sent as [|[] [|]]; try (apply Hskip; [discriminate|exact E]). destruct ((id' =? id) && (off' =? off)) eqn:Eb; [|apply Hskip; [discriminate|exact E]].
    apply andb_true_iff in Eb as [E1 E2]. apply Z.eqb_eq in E1, E2. subst. injection E as <- -> -> -> ->. split; [reflexivity|]. intros e z He. inversion He.
Qed.
Fixpoint stream_plusb (fuel : nat) (x off : Z) (hs : list event) : option (list kplus) :=
  match fuel, hs with
  | S fuel, Ev s0 (QPlusBegin id x') _ :: tl =>
    if x' =? x then
      match split_run id off tl with
      | Some (_, (_, _, b), rest) =>
        match last (kernel_reads_plus b) with
        | Some y => match stream_plusb fuel x (ke_off (kp_ent y)) rest with Some l => Some (kernel_reads_plus b ++ l) | None => None end
        | None => match b with [] => Some [] | _ => None end
        end
      | None => None
      end
    else stream_plusb fuel x off tl
  | S fuel, _ :: tl => stream_plusb fuel x off tl
  | _, _ => None
  end.
Lemma stream_plusb_ok x fuel : forall hs off l, stream_plusb fuel x off hs = Some l -> stream_plus x off hs l.
Proof.
  induction fuel as [|fuel IH]; intros hs off l E; [discriminate|]. destruct hs as [|[s0 q sent] tl]; [discriminate|]. cbn [stream_plusb] in E.
  destruct q as [| | | | | | | |id x'| | |]; try (apply sp_other, IH; exact E). destruct (Z.eqb_spec x' x) as [->|]; [|apply sp_other, IH; exact E].
  destruct (split_run id off tl) as [[[mid [[s size] b]] rest]|] eqn:Es; [|discriminate]. apply split_run_ok in Es as [-> Hm].
  destruct (last (kernel_reads_plus b)) as [y|] eqn:El; [|destruct b; [injection E as <-; apply sp_end; exact Hm|discriminate]].
  apply last_Some in El as [ys El]. destruct (stream_plusb fuel x (ke_off (kp_ent y)) rest) as [l2|] eqn:E2; [|discriminate]. injection E as <-. rewrite El, <- app_assoc. eapply sp_some; [exact Hm|exact El|]. apply IH. exact E2.
Qed.
Example C64_stream_sample : hist (sW (qs_read ++ qs_sp)) (sS (qs_read ++ qs_sp)) (sK (qs_read ++ qs_sp)) (take 3 (sH (qs_read ++ qs_sp)) ++ hs_sp) /\
  (exists l, stream_plus 2 0 hs_sp l /\ map id_name (map kp_ent l) = [(2, DOT); (1, DOTDOT); (4, nF); (5, nG)]) /\
  (forall e, e ∈ hs_sp -> asked (ev_s e) 2 <> None) /\
  (forall e e' id size off, e ∈ hs_sp -> e' ∈ hs_sp -> ev_q e = QPlusBegin id 2 -> ev_q e' = QPlusRun id size off -> roomy_plus (s_db (ev_s e)) 2 size).
Proof.
  assert (H : hist (sW (qs_read ++ qs_sp)) (sS (qs_read ++ qs_sp)) (sK (qs_read ++ qs_sp)) (sH (qs_read ++ qs_sp))) by (apply sess_hist; qs_ok).
  rewrite <- (take_drop 3 (sH (qs_read ++ qs_sp))) in H. change (drop 3 (sH (qs_read ++ qs_sp))) with hs_sp in H. split; [exact H|]. split; [|split].
  - destruct (stream_plusb 9 2 0 hs_sp) as [l|] eqn:El; [|vm_compute in El; discriminate El]. exists l. split; [apply (stream_plusb_ok 2 9); exact El|].
    assert (E2 : ((fun l => map id_name (map kp_ent l)) <$> stream_plusb 9 2 0 hs_sp) = Some [(2, DOT); (1, DOTDOT); (4, nF); (5, nG)]) by (vm_compute; reflexivity). rewrite El in E2. cbn in E2. injection E2. auto.
  - intros e He. assert (Hb : forallb (thereb 2) hs_sp = true) by (vm_compute; reflexivity). rewrite forallb_forall in Hb. apply elem_of_list_In in He. specialize (Hb _ He). unfold thereb in Hb. destruct (asked (ev_s e) 2); [discriminate|discriminate Hb].
  - intros e e' id size off He He' Hq Hq'. destruct (hist_split _ _ _ _ _ H) as (W0 & s0 & k0 & H0 & Hg). destruct (hist_inv _ _ _ _ H0) as (HF0 & _).
    assert (Hroot : under (s_db s0) 1 1) by (left; auto). destruct (goes_under _ _ _ _ _ _ _ Hg _ _ _ H0 Hroot e He) as [Hi _].
    assert (Hs : 199 < size). { assert (Hb : forallb (fun e => match ev_q e with QPlusRun _ size _ => 199 <? size | _ => true end) hs_sp = true) by (vm_compute; reflexivity). rewrite forallb_forall in Hb. apply elem_of_list_In in He'. specialize (Hb _ He'). cbv beta in Hb. rewrite Hq' in Hb. apply Z.ltb_lt, Hb. }
    split; [lia|]. intros c n Hl. apply lookup_treei in Hl as (en & Hen & <-); [|first [exact Hi|unfold u64; lia]..].
    assert (Hb : forallb (fun e => forallb (fun kv => direntplus_size (de_name kv.2) <? 200) (map_to_list (d_treei (s_db (ev_s e))))) hs_sp = true) by (vm_compute; reflexivity).
    rewrite forallb_forall in Hb. apply elem_of_list_In in He. specialize (Hb _ He). cbv beta in Hb. rewrite forallb_forall in Hb. assert (Hx : (direntplus_size (de_name en) <? 200) = true) by (apply (Hb ((2, c), en)), elem_of_list_In, elem_of_map_to_list, Hen). apply Z.ltb_lt in Hx. lia.
Qed.

(** What readdirplus does with incompletely known directories (C40): nothing.  Setting or clearing
    any flags of any inode, in the snapshot the request has taken, changes neither what is sent
    nor which references are taken.  (For a client alone with the file system, [C64_alone] gives
    the normal end of the listing whatever the flags are.) *)
Lemma plus_loop_same fuel : forall t1 t2 ino size cursor buf to_send,
  d_treei (t_db t2) = d_treei (t_db t1) -> (forall y, getattr (t_db t2) y = getattr (t_db t1) y) -> (forall y, parent_of (t_db t2) y = parent_of (t_db t1) y) ->
  t_refs t2 = t_refs t1 -> t_hooks t2 = t_hooks t1 ->
  (exists x t1' t2', plus_loop fuel t1 ino size cursor buf to_send = Done (x, t1') /\ plus_loop fuel t2 ino size cursor buf to_send = Done (x, t2') /\ t_refs t2' = t_refs t1') \/
  (plus_loop fuel t1 ino size cursor buf to_send = Throw /\ plus_loop fuel t2 ino size cursor buf to_send = Throw) \/
  (plus_loop fuel t1 ino size cursor buf to_send = Crash /\ plus_loop fuel t2 ino size cursor buf to_send = Crash) \/
  (plus_loop fuel t1 ino size cursor buf to_send = Diverge /\ plus_loop fuel t2 ino size cursor buf to_send = Diverge).
Proof.
  induction fuel as [|fuel IH]; intros t1 t2 ino size cursor buf to_send Hi Ha Hp Hr Hh; cbn [plus_loop]; [auto|].
  destruct (Z.of_nat (length buf) <? size); [|left; eauto 10].
  assert (Er : readdir (t_db t2) ino cursor = readdir (t_db t1) ino cursor) by (unfold readdir; rewrite Hi, Hp; reflexivity). rewrite Er.
  destruct (readdir (t_db t1) ino cursor) as [[x n]|e]; [|left; eauto 10]. rewrite Ha. destruct (getattr (t_db t1) x) as [a|e]; [|left; eauto 10].
  destruct (plusbuf_add buf n x a x) as [b| | |]; cbn [obind]; auto.
  destruct (decide (n = DOT)); [apply IH; assumption|]. destruct (decide (n = DOTDOT)); [apply IH; assumption|].
  unfold lock. rewrite Hr. destruct (incref (t_refs t1) x 1) as [[l|e] r]; cbn [obind].
  - apply IH; cbn [t_db t_refs t_hooks]; try assumption; try reflexivity. rewrite Hh. reflexivity.
  - destruct (e =? ESTALE); [apply IH; cbn [t_db t_refs t_hooks]; try assumption; reflexivity|]. left. eexists _, _, _. split; [reflexivity|]. split; reflexivity.
Qed.
Theorem C40_plus_ignores : forall s id snap x y to_set to_clear r t size off, s_plus s !! id = Some (snap, x) ->
  update_flags (begin_tx snap (s_refs s)) y to_set to_clear = Done (r, t) ->
  fstep (Fst (s_db s) (s_refs s) (<[id := (t_db t, x)]> (s_plus s))) (QPlusRun id size off) = fstep s (QPlusRun id size off).
Proof.
  intros s id snap x y to_set to_clear r t size off Hs Hu. unfold update_flags in Hu. cbn [begin_tx t_db] in Hu. cbn [fstep]. unfold h_plus. cbn [s_plus s_db s_refs]. rewrite Hs, lookup_insert. cbn [obind].
  assert (Hd : dir_fuel (t_db t) = dir_fuel snap /\ d_treei (t_db t) = d_treei snap /\ (forall z, getattr (t_db t) z = getattr snap z) /\ (forall z, parent_of (t_db t) z = parent_of snap z)).
  { destruct (d_inodes snap !! y) as [i|] eqn:Ey; injection Hu as <- <-; [|repeat split; reflexivity]. unfold dir_fuel, getattr, parent_of. cbn. split; [reflexivity|]. split; [reflexivity|].
    split; intros z; (destruct (decide (z = y)) as [->|Hz]; [rewrite lookup_insert, Ey; reflexivity|rewrite lookup_insert_ne by congruence; reflexivity]). }
  destruct Hd as (Ef & Ei & Ea & Ep). rewrite Ef, delete_insert_delete.
  destruct (plus_loop_same (dir_fuel snap) (begin_tx snap (s_refs s)) (begin_tx (t_db t) (s_refs s)) x size (w64 off) [] 0 Ei Ea Ep eq_refl eq_refl) as [(u & t1 & t2 & E1 & E2 & Er)|[[E1 E2]|[[E1 E2]|[E1 E2]]]]; rewrite E1, E2; cbn [obind]; try reflexivity. rewrite Er. reflexivity.
Qed.
Print Assumptions C40_plus_ignores.
Example C40_plus_ignores_sample : s_plus (sS qs_plus) !! 8 = Some (s_db (sS qs_plus), 2) /\
  match update_flags (begin_tx (s_db (sS qs_plus)) (s_refs (sS qs_plus))) 2 [SYNCED] [] with Done (Ok _, t) => test_flag (t_db t) 2 SYNCED = Ok true | _ => False end /\ test_flag (s_db (sS qs_plus)) 2 SYNCED = Ok false.
Proof. split; [|vm_compute; auto]. reflexivity. Qed.
