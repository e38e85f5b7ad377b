(** File system properties C39 and C40: listing a directory in pieces. *)
From Verif Require Export FsStream PropsFs.

(** ** C39: repeated readdir enumerates ".", ".." and each child once *)
Definition id_name (y : kent) : Z * bytes := (ke_ino y, ke_name y).
(** the fixed beginning of a listing of [x], whose parent is [p]; the root has no ".." *)
Definition dots (x p : Z) : list (Z * bytes) := (x, DOT) :: if x =? ROOT_INO then [] else [(p, DOTDOT)].
Lemma parent_root d x p : Inv d -> parent_of d x = Ok p -> p <> 0 -> (p =? x) = (x =? ROOT_INO).
Proof. intros H Hp H0. unfold ROOT_INO. destruct (parent_lt _ _ _ H Hp) as [[-> ->]|[[? ->]|[? ?]]]; [reflexivity|contradiction|]. destruct (Z.eqb_spec p x), (Z.eqb_spec x 1); try reflexivity; try lia. Qed.
Lemma inl_lookup d x p c n : Inv d -> u64 x -> c <> x -> c <> p -> inl d x p c n <-> lookup d x n = Ok c.
Proof.
  intros H Hx H1 H2. unfold inl. rewrite lookup_treei by assumption. rewrite elem_dir_entries. split; [intros [[? _]|[(_ & ? & _)|?]]; [contradiction..|assumption]|auto].
Qed.
Lemma id_shape x p (l : list kent) rest : map ke_ino l = x :: (if p =? x then [] else [p]) ++ rest -> (p =? x) = (x =? ROOT_INO) ->
  (forall y, y ∈ l -> ke_ino y = x -> ke_name y = DOT) -> (forall y, y ∈ l -> p <> x -> ke_ino y = p -> ke_name y = DOTDOT) ->
  exists l2, map id_name l = dots x p ++ map id_name l2 /\ map ke_ino l2 = rest /\ (forall y, y ∈ l2 -> y ∈ l) /\ (forall y, y ∈ l -> y ∈ l2 \/ ke_ino y = x \/ ke_ino y = p).
Proof.
  intros E Hr H1 H2. unfold dots. rewrite <- Hr. destruct l as [|y1 l]; [discriminate|]. cbn [map] in E. injection E as E1 E. assert (N1 : ke_name y1 = DOT) by (apply H1; [left|exact E1]).
  destruct (Z.eqb_spec p x) as [->|Hpx].
  - exists l. cbn [map app] in *. split; [unfold id_name at 1; rewrite E1, N1; reflexivity|]. split; [exact E|]. split; [intros y Hy; right; exact Hy|]. intros y Hy. apply elem_of_cons in Hy as [->|Hy]; auto.
  - cbn [app] in E. destruct l as [|y2 l]; [discriminate|]. cbn [map] in E. injection E as E2 E. assert (N2 : ke_name y2 = DOTDOT) by (apply H2; [right; left|exact Hpx|exact E2]).
    exists l. cbn [map app]. split; [unfold id_name at 1 2; rewrite E1, N1, E2, N2; reflexivity|]. split; [exact E|]. split; [intros y Hy; right; right; exact Hy|]. intros y Hy. apply elem_of_cons in Hy as [->|Hy]; [auto|]. apply elem_of_cons in Hy as [->|Hy]; auto.
Qed.

(** A client that reads the directory [x] from the start to the empty reply, each buffer larger
    than every entry, while anything else happens between its requests - but [x] keeps a path.
    It gets "." and "..", and then each entry at most once: only entries which the directory had
    at the time of one of the requests, with their type then, and every entry which the directory
    had throughout. *)
Theorem C39_stream : forall W s k h hs x l, hist W s k (h ++ hs) -> stream x 0 hs l ->
  (forall e, e ∈ hs -> asked (ev_s e) x <> None) ->
  (forall e size off, e ∈ hs -> ev_q e = QReaddir x size off -> roomy (s_db (ev_s e)) x size) ->
  NoDup (map ke_ino l) /\
  exists p l2, (forall e, e ∈ hs -> parent_of (s_db (ev_s e)) x = Ok p) /\ map id_name l = dots x p ++ map id_name l2 /\
    (forall y, y ∈ l2 -> exists e a, e ∈ hs /\ lookup (s_db (ev_s e)) x (ke_name y) = Ok (ke_ino y) /\ getattr (s_db (ev_s e)) (ke_ino y) = Ok a /\ ke_type y = ktype a) /\
    (forall c n, (forall e, e ∈ hs -> lookup (s_db (ev_s e)) x n = Ok c) -> (c, n) ∈ map id_name l2).
Proof.
  intros W s k h hs x l H Hst Has Hroom. destruct (hist_split h hs _ _ _ H) as (W0 & s0 & k0 & H0 & Hg).
  assert (He0 : exists e0 es, hs = e0 :: es /\ ev_s e0 = s0) by (destruct Hg; [inversion Hst|eauto]). destruct He0 as (e0 & es & -> & <-).
  pose proof (Has e0 ltac:(left)) as Hn0. destruct (asked (ev_s e0) x) as [pp|] eqn:Ea; [|contradiction]. clear Hn0. destruct (hist_inv _ _ _ _ H0) as (HF0 & _). pose proof (dr_inv _ _ _ (fi_dr _ _ _ HF0)) as Hi0.
  destruct (asked_parent _ _ _ Hi0 Ea) as (Hh0 & p & Hp & Hp0 & _). assert (Hx : u64 x) by (apply has_inode_iff in Hh0 as [i Hi']; apply (inode_range _ _ _ Hi0 Hi')).
  assert (Hu : under (s_db (ev_s e0)) x p) by (eapply under_start; eassumption).
  assert (Hev : forall e, e ∈ e0 :: es -> Inv (s_db (ev_s e)) /\ parent_of (s_db (ev_s e)) x = Ok p /\ has_inode (s_db (ev_s e)) x).
  { intros e He. destruct (goes_under _ _ _ _ _ _ _ Hg _ _ _ H0 Hu e He) as [Hie Hue]. split; [exact Hie|]. pose proof (Has e He) as Hn. destruct (asked (ev_s e) x) as [pe|] eqn:Ee; [|contradiction]. destruct (under_parent _ _ _ _ Hie Hue Ee) as (? & _ & ?). auto. }
  destruct (stream_ok x p 0 (e0 :: es) l Hst ltac:(unfold u64; lia) _ _ _ _ _ _ _ H0 Hg Hu) as (A1 & A2 & A3 & _).
  { intros e He size o Hq. split; [apply Has; exact He|]. eapply Hroom; eassumption. }
  assert (Hnz : Forall (fun c => c <> 0) (map ke_ino l)) by (rewrite Forall_forall; intros c Hc; apply elem_of_list_fmap in Hc as (y & -> & Hy); apply (A2 y Hy)).
  split; [eapply sorted_nodup; eassumption|].
  assert (Hroot := parent_root _ _ _ Hi0 Hp Hp0).
  destruct (sorted_shape x p (map ke_ino l) A1 Hnz) as (rest & El & Hrest).
  { apply (A3 x DOT); [|left; reflexivity]. intros e He. left. auto. }
  { intros Hne. apply (A3 p DOTDOT); [|left; reflexivity]. intros e He. right. left. auto. }
  destruct (id_shape x p l rest El Hroot) as (l2 & E2 & Er & Hsub & Hsup).
  { intros y Hy Ey. destruct (A2 y Hy) as (_ & _ & e & He & _ & Hie & Hpe & Hin & _). eapply inl_fun; [exact Hie|exact Hpe|exact Hin|]. left. auto. }
  { intros y Hy Hne Ey. destruct (A2 y Hy) as (_ & _ & e & He & _ & Hie & Hpe & Hin & _). eapply inl_fun; [exact Hie|exact Hpe|exact Hin|]. right. left. auto. }
  exists p, l2. split; [intros e He; apply (Hev e He)|]. split; [exact E2|].
  assert (Hne : forall y, y ∈ l2 -> ke_ino y <> x /\ ke_ino y <> p). { intros y Hy. rewrite Forall_forall in Hrest. apply Hrest. rewrite <- Er. apply elem_of_list_fmap. eauto. }
  split.
  - intros y Hy. destruct (A2 y (Hsub y Hy)) as (_ & _ & e & He & _ & Hie & Hpe & Hin & a & Hga & Hty). exists e, a. destruct (Hne y Hy). split; [exact He|]. split; [|auto]. apply (inl_lookup _ x p); auto.
  - intros c n Hc. assert (Hinl : forall e, e ∈ e0 :: es -> inl (s_db (ev_s e)) x p c n). { intros e He. destruct (Hev e He) as (Hie & _). right. right. apply elem_dir_entries. apply lookup_treei; [assumption..|]. apply Hc. exact He. }
    assert (Hck : u64 c /\ 1 <= x < c /\ p < c). { destruct (Hev e0 ltac:(left)) as (Hie & Hpe & _). destruct (child_facts _ _ _ c n Hie Hpe) as (? & ? & ? & _); [|auto]. apply elem_dir_entries. apply lookup_treei; [assumption..|]. apply Hc. left. }
    assert (Hcl : c ∈ map ke_ino l) by (apply (A3 c n); [exact Hinl|left; reflexivity]). apply elem_of_list_fmap in Hcl as (y & -> & Hy). apply elem_of_list_fmap. exists y.
    destruct (Hsup y Hy) as [Hy2|[?|?]]; [|lia..]. split; [|exact Hy2]. unfold id_name. f_equal. destruct (A2 y Hy) as (_ & _ & e & He & _ & Hie & Hpe & Hin & _). eapply inl_fun; [exact Hie|exact Hpe| |exact Hin]. apply Hinl. exact He.
Qed.
Print Assumptions C39_stream.

(** A client alone with the file system: if it may make more requests than the directory has
    entries, it comes to an end, and what it got is ".", ".." and exactly the children.  The
    last reply is the empty one if the directory is completely known and the error EIO if not. *)
Theorem C39_alone : forall W s k h x sizes names, hist W s k h -> W + 3 < 2 ^ 63 -> asked s x <> None ->
  (forall n c, lookup (s_db s) x n = Ok c -> n ∈ names) -> Forall (roomy (s_db s) x) sizes -> (length names + 2 < length sizes)%nat ->
  exists p l l2, read_all s x 0 sizes = Some (l, match test_flag (s_db s) x SYNCED with Ok true => RBuf [] | _ => RErr EIO end) /\
    parent_of (s_db s) x = Ok p /\ map id_name l = dots x p ++ l2 /\ NoDup (l2.*1) /\ NoDup (l2.*2) /\
    forall c n, (c, n) ∈ l2 <-> lookup (s_db s) x n = Ok c.
Proof.
  intros W s k h x sizes names H HW3 Has Hnames Hr Hlen. destruct (asked s x) as [pp|] eqn:Ea; [|contradiction]. destruct (hist_inv _ _ _ _ H) as (HF & HA & _). pose proof (dr_inv _ _ _ (fi_dr _ _ _ HF)) as Hi.
  destruct (asked_parent _ _ _ Hi Ea) as (Hh & p & Hp & Hp0 & _). assert (Hx : u64 x) by (apply has_inode_iff in Hh as [i Hi']; apply (inode_range _ _ _ Hi Hi')).
  destruct (scan_total (s_db s) x 0 Hi) as (L & e & Hs & _). destruct (scan_rest (s_db s) x p 0 L e Hi Hx Hh Hp Hp0 Hs ltac:(unfold u64; lia)) as (-> & Hsorted & Hall & Hcov).
  assert (Hinos : map ke_ino (map want (map to_bent L)) = inos L) by (unfold inos; clear; induction L as [|[[c n] a] L IH]; [reflexivity|]; cbn; f_equal; exact IH).
  assert (Hids : forall y, y ∈ map want (map to_bent L) -> exists a, (ke_ino y, ke_name y, a) ∈ L).
  { intros y Hy. apply elem_of_list_fmap in Hy as (b & -> & Hb). apply elem_of_list_fmap in Hb as ([[c n] a] & -> & Hb). exists a. exact Hb. }
  assert (Hnz : Forall (fun c => c <> 0) (inos L)). { rewrite Forall_forall. intros c Hc. apply elem_of_list_fmap in Hc as ([[c' n] a] & -> & Hc). destruct (Hall _ _ _ Hc) as (Hin & _). destruct (inl_has _ _ _ _ _ Hi Hp Hp0 Hx Hh Hin) as (_ & ? & _). cbn. lia. }
  assert (Hroot := parent_root _ _ _ Hi Hp Hp0).
  destruct (sorted_shape x p (inos L) Hsorted Hnz) as (rest & El & Hrest).
  { apply (Hcov x DOT); [left; auto|left; reflexivity]. }
  { intros Hne. apply (Hcov p DOTDOT); [right; left; auto|left; reflexivity]. }
  destruct (id_shape x p (map want (map to_bent L)) rest) as (l2 & E2 & Er & Hsub & Hsup); [rewrite Hinos; exact El|exact Hroot|..].
  { intros y Hy Ey. destruct (Hids y Hy) as [a Hya]. destruct (Hall _ _ _ Hya) as (Hin & _). eapply inl_fun; [exact Hi|exact Hp|exact Hin|]. left. auto. }
  { intros y Hy Hne Ey. destruct (Hids y Hy) as [a Hya]. destruct (Hall _ _ _ Hya) as (Hin & _). eapply inl_fun; [exact Hi|exact Hp|exact Hin|]. right. left. auto. }
  assert (Hne : forall y, y ∈ l2 -> ke_ino y <> x /\ ke_ino y <> p). { intros y Hy. rewrite Forall_forall in Hrest. apply Hrest. rewrite <- Er. apply elem_of_list_fmap. eauto. }
  assert (Hiff : forall c n, (c, n) ∈ map id_name l2 <-> lookup (s_db s) x n = Ok c).
  { intros c n. split.
    - intros Hc. apply elem_of_list_fmap in Hc as (y & E & Hy). injection E as -> ->. destruct (Hids y (Hsub y Hy)) as [a Hya]. destruct (Hall _ _ _ Hya) as (Hin & _). destruct (Hne y Hy). apply (inl_lookup _ x p); auto.
    - intros Hc. assert (Hinl : inl (s_db s) x p c n). { right. right. apply elem_dir_entries. apply lookup_treei; assumption. }
      assert (Hck : 1 <= x < c /\ p < c). { destruct (child_facts (s_db s) x p c n Hi Hp) as (_ & ? & ? & _); [|auto]. apply elem_dir_entries. apply lookup_treei; assumption. }
      pose proof (Hcov c n Hinl ltac:(left; reflexivity)) as Hcl. rewrite <- Hinos in Hcl. apply elem_of_list_fmap in Hcl as (y & -> & Hy). apply elem_of_list_fmap. exists y. destruct (Hsup y Hy) as [Hy2|[?|?]]; [|lia..].
      split; [|exact Hy2]. unfold id_name. f_equal. destruct (Hids y Hy) as [a Hya]. destruct (Hall _ _ _ Hya) as (Hin & _). eapply inl_fun; [exact Hi|exact Hp|exact Hinl|exact Hin]. }
  assert (Hnd1 : NoDup (map id_name l2).*1).
  { assert (Hnd : NoDup (inos L)) by (eapply sorted_nodup; eassumption). rewrite El in Hnd. apply NoDup_cons in Hnd as [_ Hnd]. apply NoDup_app in Hnd as (_ & _ & Hnd). rewrite <- Er in Hnd. replace ((map id_name l2).*1) with (map ke_ino l2); [exact Hnd|]. clear. induction l2 as [|y l2 IH]; [reflexivity|]. cbn. f_equal. exact IH. }
  assert (Hnd2 : NoDup (map id_name l2).*2).
  { clear - Hiff Hnd1. set (L := map id_name l2) in *. clearbody L. assert (Hall : forall c c' n, (c, n) ∈ L -> (c', n) ∈ L -> c = c') by (intros c c' n H1 H2; apply Hiff in H1, H2; congruence). clear Hiff.
    induction L as [|[c n] L IH]; [constructor|]. cbn in *. apply NoDup_cons in Hnd1 as [Hn1 Hnd1]. constructor; [|apply IH; [exact Hnd1|]; intros c1 c2 n1 H1 H2; apply (Hall c1 c2 n1); right; assumption].
    intros Hin. apply elem_of_list_fmap in Hin as ([c' n'] & E & Hin). cbn in E. subst n'. apply Hn1. apply elem_of_list_fmap. exists (c', n). split; [|exact Hin]. cbn. apply (Hall c c' n); [left|right; exact Hin]. }
  exists p, (map want (map to_bent L)), (map id_name l2). split; [|auto 10].
  apply (read_all_ok W s k h); auto; [congruence|unfold u64; lia|].
  assert (HL : length L = length (dots x p ++ map id_name l2)) by (rewrite <- E2, !map_length; reflexivity). rewrite HL, app_length.
  assert (Hle : (length ((map id_name l2).*2) <= length names)%nat). { apply submseteq_length, NoDup_submseteq; [exact Hnd2|]. intros n Hn. apply elem_of_list_fmap in Hn as ([c n'] & -> & Hn). apply Hiff in Hn. exact (Hnames _ _ Hn). }
  rewrite fmap_length in Hle. assert ((length (dots x p) <= 2)%nat) by (unfold dots; destruct (x =? ROOT_INO); cbn; lia). lia.
Qed.
Print Assumptions C39_alone.

(** A buffer of more than 528 bytes is larger than every entry of every directory. *)
Theorem C39_room : forall W s k h x size, hist W s k h -> u64 x -> 528 < size -> roomy (s_db s) x size.
Proof. intros W s k h x size H Hx Hs. destruct (hist_inv _ _ _ _ H) as (HF & _). apply roomy_all; [exact (dr_inv _ _ _ (fi_dr _ _ _ HF))|assumption..]. Qed.
(** The data of a reply is never longer than the client asked for: readdir and readdirplus. *)
Theorem C39_size : forall W s k h q size, hist W s k h -> klegal k s q -> enough W s q -> (exists x off, q = QReaddir x size off) \/ (exists id off, q = QPlusRun id size off) ->
  forall o s' b, fstep s q = Done (s', o) -> RBuf b ∈ (sent_of o).1 -> Z.of_nat (length b) <= Z.max 0 size.
Proof.
  intros W s k h q size H Hl Hen Hq o s' b E Hb. destruct (hist_inv _ _ _ _ H) as (HF & HA & HW). pose proof (dr_inv _ _ _ (fi_dr _ _ _ HF)) as Hi.
  assert (Hlen : forall (f : bytes -> Z) (rec : bent -> bytes) l pre post, (forall e, Z.of_nat (length (rec e)) = f (be_name e)) -> fits f size l pre post -> Z.of_nat (length (concat (map rec pre))) <= Z.max 0 size).
  { intros f rec l pre post Hf (_ & F1 & F2). rewrite (concat_total f) by exact Hf. destruct (Z_lt_le_dec 0 size) as [H0|H0]; [destruct (F1 H0); lia|]. rewrite (F2 H0). cbn. lia. }
  destruct Hq as [(x & off & ->)|(id & off & ->)]; cbn [fstep] in E.
  - destruct (h_readdir_total s x size off Hi) as (r & E2 & Hc). rewrite E2 in E. injection E as <- <-.
    inversion Hc; subst; cbn [sent_of] in Hb; rewrite ?answer_one, ?answer_two in Hb; cbn [fst] in Hb; apply elem_of_list_singleton in Hb; try discriminate Hb; injection Hb as ->; eapply (Hlen dirent_size); [exact rec_dirent_length|eassumption|exact rec_dirent_length|eassumption].
  - cbn [klegal] in Hl. destruct (s_plus s !! id) as [[snap dir]|] eqn:Hid; [|contradiction]. unfold enough in Hen. assert (H63 : 2 ^ 63 < 2 ^ 64) by lia.
    destruct (h_plus_total W s k id size off snap dir HF Hid ltac:(lia)) as (l & e & pre & post & rep & _ & Hf & E2 & _ & _ & Hrep). rewrite E2 in E. injection E as <- <-. cbn [sent_of] in Hb. rewrite answer_one in Hb. cbn [fst] in Hb. apply elem_of_list_singleton in Hb. subst rep.
    destruct Hrep as [[Hr _]|[Hr _]]; [|discriminate]. injection Hr as ->. eapply (Hlen direntplus_size); [exact rec_plus_length|exact Hf].
Qed.
Print Assumptions C39_size.

(** Samples.  A directory "d" with two children, read in pieces of 40 bytes while the file "f" at the
    top disappears and a lookup changes "d/f"; a second client that reads all of it alone. *)
Definition qs_read : list request := [QLookup online 1 nD; QLookup online 1 nF; QOpendir online 2].
Definition qs_stream : list request := [QReaddir 2 40 0; QLookup changed 1 nF; QReaddir 2 40 2; QLookup changed 2 nF; QReaddir 2 100 1; QReaddir 2 40 5].
Definition hs_read : list event := drop 3 (sH (qs_read ++ qs_stream)).
Definition reads_of (e : event) : list kent := match ev_sent e with [RBuf b] => kernel_reads b | _ => [] end.
Definition roomyb (d : db) (x size : Z) : bool := (32 <? size) && forallb (fun kv => negb (fst kv =? x) || (dirent_size (de_name (snd kv)) <? size)) (map (fun kv => (fst (fst kv), snd kv)) (map_to_list (d_treei d))).
Lemma roomyb_ok d x size : Inv d -> u64 x -> roomyb d x size = true -> roomy d x size.
Proof.
  intros H Hx E. unfold roomyb in E. apply andb_true_iff in E as [E1 E2]. apply Z.ltb_lt in E1. split; [exact E1|]. intros c n Hl. apply lookup_treei in Hl as (e & He & <-); [|assumption..].
  rewrite forallb_forall in E2. specialize (E2 (x, e)). cbn [fst snd] in E2. rewrite Z.eqb_refl in E2. cbn [negb orb] in E2. apply Z.ltb_lt, E2. apply in_map_iff. exists ((x, c), e). split; [reflexivity|]. apply elem_of_list_In, elem_of_map_to_list. exact He.
Qed.
Fixpoint streamb (x off : Z) (hs : list event) : option (list kent) :=
  match hs with
  | [] => None
  | e :: hs =>
    match e with
    | Ev s (QReaddir x' size off') [RBuf b] =>
      if (x' =? x) && (off' =? off) then
        match last (kernel_reads b) with
        | Some y => match streamb x (ke_off y) hs with Some l => Some (kernel_reads b ++ l) | None => None end
        | None => match b with [] => Some [] | _ => None end
        end
      else streamb x off hs
    | _ => streamb x off hs
    end
  end.
Lemma streamb_ok x hs : forall off l, streamb x off hs = Some l -> stream x off hs l.
Proof.
  induction hs as [|[s q sent] hs IH]; intros off l E; [discriminate|]. cbn [streamb] in E.
  destruct q; try (apply st_other, IH; exact E). destruct sent as [|[] [|]]; try (apply st_other, IH; exact E).
  destruct (_ && _) eqn:Exo; [|apply st_other, IH; exact E]. apply andb_true_iff in Exo as [E1 E2]. apply Z.eqb_eq in E1, E2. subst.
  destruct (last (kernel_reads b)) as [y|] eqn:El; [|destruct b; [injection E as <-; apply st_end|discriminate]].
  apply last_Some in El as [ys El]. destruct (streamb x (ke_off y) hs) as [l2|] eqn:Es; [|discriminate]. injection E as <-. rewrite El, <- app_assoc. eapply st_some; [exact El|]. apply IH. exact Es.
Qed.
Definition thereb (x : Z) (e : event) : bool := match asked (ev_s e) x with Some _ => true | None => false end.
Definition roomyeb (x : Z) (e : event) : bool := match ev_q e with QReaddir x' size _ => if x' =? x then roomyb (s_db (ev_s e)) x size else true | _ => true end.
Example C39_stream_sample : hist (sW (qs_read ++ qs_stream)) (sS (qs_read ++ qs_stream)) (sK (qs_read ++ qs_stream)) (sH qs_read ++ hs_read) /\
  (exists l, stream 2 0 hs_read l /\ map id_name l = [(2, DOT); (1, DOTDOT); (4, nF); (5, nG)]) /\
  (forall e, e ∈ hs_read -> asked (ev_s e) 2 <> None) /\
  (forall e size off, e ∈ hs_read -> ev_q e = QReaddir 2 size off -> roomy (s_db (ev_s e)) 2 size).
Proof.
  assert (H : hist (sW (qs_read ++ qs_stream)) (sS (qs_read ++ qs_stream)) (sK (qs_read ++ qs_stream)) (sH (qs_read ++ qs_stream))) by (apply sess_hist; qs_ok).
  assert (E : sH (qs_read ++ qs_stream) = sH qs_read ++ hs_read) by (vm_compute; reflexivity). rewrite E in H. split; [exact H|]. split; [|split].
  - destruct (streamb 2 0 hs_read) as [l|] eqn:El; [|vm_compute in El; discriminate El]. exists l. split; [apply streamb_ok; exact El|].
    assert (E2 : (map id_name <$> streamb 2 0 hs_read) = Some [(2, DOT); (1, DOTDOT); (4, nF); (5, nG)]) by (vm_compute; reflexivity). rewrite El in E2. cbn in E2. injection E2. auto.
  - intros e He. assert (Hb : forallb (thereb 2) hs_read = true) by (vm_compute; reflexivity). rewrite forallb_forall in Hb. apply elem_of_list_In in He. specialize (Hb _ He). unfold thereb in Hb. destruct (asked (ev_s e) 2); [discriminate|discriminate Hb].
  - intros e size off He Hq. destruct (hist_split _ _ _ _ _ H) as (W0 & s0 & k0 & H0 & Hg). destruct (hist_inv _ _ _ _ H0) as (HF0 & _).
    assert (Hroot : under (s_db s0) 1 1) by (left; auto). destruct (goes_under _ _ _ _ _ _ _ Hg _ _ _ H0 Hroot e He) as [Hi _]. apply roomyb_ok; [exact Hi|unfold u64; lia|].
    assert (Hb : forallb (roomyeb 2) hs_read = true) by (vm_compute; reflexivity). rewrite forallb_forall in Hb. apply elem_of_list_In in He. specialize (Hb _ He). unfold roomyeb in Hb. rewrite Hq in Hb. exact Hb.
Qed.
Example C39_alone_sample : hist (sW qs_read) (sS qs_read) (sK qs_read) (sH qs_read) /\ sW qs_read + 3 < 2 ^ 63 /\ asked (sS qs_read) 2 <> None /\ Forall (roomy (s_db (sS qs_read)) 2) [33; 64; 34; 1000; 40; 40] /\
  match read_all (sS qs_read) 2 0 [33; 64; 34; 1000; 40; 40] with Some (l, r) => map id_name l = [(2, DOT); (1, DOTDOT); (4, nF); (5, nG)] /\ r = RBuf [] | None => False end.
Proof.
  assert (H : hist (sW qs_read) (sS qs_read) (sK qs_read) (sH qs_read)) by (apply sess_hist; qs_ok). split; [exact H|]. split; [vm_compute; reflexivity|].
  split; [assert (Hb : asked (sS qs_read) 2 = Some [47; 100]) by (vm_compute; reflexivity); rewrite Hb; discriminate|].
  split; [|vm_compute; auto]. destruct (hist_inv _ _ _ _ H) as (HF & _). pose proof (dr_inv _ _ _ (fi_dr _ _ _ HF)) as Hi.
  repeat (apply Forall_cons; split; [apply roomyb_ok; [exact Hi|unfold u64; lia|vm_compute; reflexivity]|]). apply Forall_nil. exact I.
Qed.
(** The buffer has to be larger than the entry: "." takes 32 bytes, but a client that offers 32
    bytes gets the empty reply and takes the directory for empty. *)
Theorem C39_exact_fit_refuted : exists W s k h, hist W s k h /\ test_flag (s_db s) 2 SYNCED = Ok true /\ dirent_size DOT = 32 /\ exists s', handles s (QReaddir 2 32 0) [RBuf []] s'.
Proof.
  exists (sW qs_read), (sS qs_read), (sK qs_read), (sH qs_read). split; [apply sess_hist; qs_ok|]. split; [vm_compute; reflexivity|]. split; [reflexivity|]. exists (next (sS qs_read) (QReaddir 2 32 0)).
  destruct (out_ok (sS qs_read) (QReaddir 2 32 0) ([RBuf []], false)) as (o & E & Es); [vm_compute; reflexivity|]. exists o. auto.
Qed.

(** ** C40: an incompletely known directory never looks complete *)
(** readdir gives the empty reply, which is the end of the directory, only when the directory is
    completely known: every state, every directory - also a removed one -, every offset, every
    buffer larger than every entry. *)
Theorem C40_readdir_partial : forall W s k h x size off s', hist W s k h -> u64 x -> roomy (s_db s) x size ->
  handles s (QReaddir x size off) [RBuf []] s' -> test_flag (s_db s) x SYNCED = Ok true.
Proof.
  intros W s k h x size off s' H Hx Hr (o & E & Es). destruct (hist_inv _ _ _ _ H) as (HF & HA & HW). pose proof (dr_inv _ _ _ (fi_dr _ _ _ HF)) as Hi. cbn [fstep] in E.
  destruct (h_readdir_total s x size off Hi) as (r & E2 & Hc). rewrite E2 in E. injection E as _ <-.
  assert (H0 : 0 < size) by (destruct Hr; lia).
  assert (Hnil : forall pre, concat (map rec_dirent pre) = [] -> pre = []).
  { intros pre Hp. apply (recs_nil dirent_size rec_dirent pre rec_dirent_length dirent_size_pos). rewrite Hp. reflexivity. }
  inversion Hc as [l e pre post Hs Hf Hpost E1|l pre _ Hs Hf Hsy E1|_ Hs Hns E1|l e pre _ Hs Hf He _ _ E1]; subst; cbn [sent_of] in Es; rewrite ?answer_one, ?answer_two in Es; try discriminate Es; injection Es as Es; apply Hnil in Es as ->.
  - exfalso. specialize (Hpost H0). destruct Hf as (El & Hf & _). destruct (Hf H0) as [_ Hf2]. cbn [app] in El. destruct post as [|y post]; [contradiction|]. destruct l as [|[[c n] a] l]; [discriminate|]. cbn [map to_bent] in El. injection El as <- _.
    unfold total_size in Hf2. cbn in Hf2. inversion Hs; subst. assert (Hn : dirent_size n < size). { destruct Hr as [R1 R2]. destruct (readdir_from _ _ _ _ _ Hi Hx ltac:(eassumption)) as [->|[->|Hl]]; [exact R1|exact R1|exact (R2 _ _ Hl)]. } lia.
  - apply Hsy. reflexivity.
Qed.
Print Assumptions C40_readdir_partial.
(** A listing that came to an end while the directory changed: the directory was completely
    known when the last piece was read. *)
Theorem C40_stream_partial : forall W s k h hs x l, hist W s k (h ++ hs) -> stream x 0 hs l ->
  (forall e, e ∈ hs -> asked (ev_s e) x <> None) ->
  (forall e size off, e ∈ hs -> ev_q e = QReaddir x size off -> roomy (s_db (ev_s e)) x size) ->
  exists s1 size off, Ev s1 (QReaddir x size off) [RBuf []] ∈ hs /\ test_flag (s_db s1) x SYNCED = Ok true.
Proof.
  intros W s k h hs x l H Hst Has Hroom. destruct (hist_split h hs _ _ _ H) as (W0 & s0 & k0 & H0 & Hg).
  assert (He0 : exists e0 es, hs = e0 :: es /\ ev_s e0 = s0) by (destruct Hg; [inversion Hst|eauto]). destruct He0 as (e0 & es & -> & <-).
  pose proof (Has e0 ltac:(left)) as Hn0. destruct (asked (ev_s e0) x) as [pp|] eqn:Ea; [|contradiction]. clear Hn0. destruct (hist_inv _ _ _ _ H0) as (HF0 & _). pose proof (dr_inv _ _ _ (fi_dr _ _ _ HF0)) as Hi0.
  destruct (asked_parent _ _ _ Hi0 Ea) as (Hh0 & p & Hp & Hp0 & _). assert (Hu : under (s_db (ev_s e0)) x p) by (eapply under_start; eassumption).
  destruct (stream_ok x p 0 (e0 :: es) l Hst ltac:(unfold u64; lia) _ _ _ _ _ _ _ H0 Hg Hu) as (_ & _ & _ & e & size & o & He & Ee & Hf).
  { intros e He size o Hq. split; [apply Has; exact He|]. eapply Hroom; eassumption. }
  exists (ev_s e), size, o. rewrite <- Ee. auto.
Qed.
Print Assumptions C40_stream_partial.
(** An incompletely known directory with a path, read alone: the listing ends with EIO.  (The
    part of [C39_alone] for it.) *)
Theorem C40_eio_partial : forall W s k h x sizes names, hist W s k h -> W + 3 < 2 ^ 63 -> asked s x <> None -> test_flag (s_db s) x SYNCED <> Ok true ->
  (forall n c, lookup (s_db s) x n = Ok c -> n ∈ names) -> Forall (roomy (s_db s) x) sizes -> (length names + 2 < length sizes)%nat ->
  exists l, read_all s x 0 sizes = Some (l, RErr EIO).
Proof.
  intros W s k h x sizes names H HW Has Hns Hn Hr Hl. destruct (C39_alone W s k h x sizes names H HW Has Hn Hr Hl) as (p & l & l2 & E & _). exists l. rewrite E. destruct (test_flag (s_db s) x SYNCED) as [[|]|]; [contradiction|reflexivity..].
Qed.
Definition qs_part : list request := [QLookup online 1 nD; QLookup online 2 nF].
Example C40_eio_sample : hist (sW qs_part) (sS qs_part) (sK qs_part) (sH qs_part) /\ asked (sS qs_part) 2 <> None /\ test_flag (s_db (sS qs_part)) 2 SYNCED = Ok false /\
  match read_all (sS qs_part) 2 0 [64; 64; 64; 64; 64] with Some (l, r) => map id_name l = [(2, DOT); (1, DOTDOT); (3, nF)] /\ r = RErr EIO | None => False end.
Proof.
  split; [apply sess_hist; qs_ok|]. split; [assert (Hb : asked (sS qs_part) 2 = Some [47; 100]) by (vm_compute; reflexivity); rewrite Hb; discriminate|]. split; [vm_compute; reflexivity|vm_compute; auto].
Qed.
(** What is missing: readdirplus does not look at the flag (fs.cpp:308-372).  The same directory,
    of which only one of two files is known, ends normally. *)
Definition qs_plus : list request := qs_part ++ [QPlusBegin 7 2; QPlusRun 7 4096 0; QPlusBegin 8 2].
Theorem C40_plus_refuted : exists W s k h s1, hist W s k h /\ asked s 2 <> None /\ test_flag (s_db s) 2 SYNCED = Ok false /\ handles s (QPlusRun 8 4096 3) [RBuf []] s1.
Proof.
  exists (sW qs_plus), (sS qs_plus), (sK qs_plus), (sH qs_plus), (next (sS qs_plus) (QPlusRun 8 4096 3)). split; [apply sess_hist; qs_ok|].
  split; [assert (Hb : asked (sS qs_plus) 2 = Some [47; 100]) by (vm_compute; reflexivity); rewrite Hb; discriminate|]. split; [vm_compute; reflexivity|].
  destruct (out_ok (sS qs_plus) (QPlusRun 8 4096 3) ([RBuf []], false)) as (o & E & Es); [vm_compute; reflexivity|]. exists o. auto.
Qed.
