(** A client that reads a directory with readdirplus, alone with the file system. *)
From Verif Require Export FsPlusStream.

Fixpoint read_all_plus (s : fstate) (x off : Z) (sizes : list Z) : option (list kplus * reply) :=
  match sizes with
  | [] => None
  | size :: sizes =>
    match fstep s (QPlusBegin 0 x) with
    | Done (s1, _) =>
      match fstep s1 (QPlusRun 0 size off) with
      | Done (s', Some [RBuf b]) =>
        match last (kernel_reads_plus b) with
        | None => Some ([], RBuf b)
        | Some y => match read_all_plus s' x (ke_off (kp_ent y)) sizes with Some (l, r) => Some (kernel_reads_plus b ++ l, r) | None => None end
        end
      | Done (_, Some [r]) => Some ([], r)
      | _ => None
      end
    | _ => None
    end
  end.
(** the references the requests can take at most *)
Fixpoint plus_cost (sizes : list Z) : Z := match sizes with [] => 0 | size :: sizes => Z.max 0 size + 1 + plus_cost sizes end.
Lemma plus_cost_nonneg sizes : 0 <= plus_cost sizes.
Proof. induction sizes; cbn [plus_cost]; lia. Qed.
Lemma filter_id {A} (P : A -> Prop) `{!forall x, Decision (P x)} l : Forall P l -> filter P l = l.
Proof. induction 1 as [|a l Ha Hl IH]; [reflexivity|]. rewrite filter_cons_True by exact Ha. f_equal. exact IH. Qed.
Lemma read_all_plus_ok x sizes : forall W s k h off l, hist W s k h -> W + plus_cost sizes + 3 < 2 ^ 63 -> asked s x <> None -> Forall (roomy_plus (s_db s) x) sizes ->
  u64 off -> scan (s_db s) x off l 0 -> (length l < length sizes)%nat -> read_all_plus s x off sizes = Some (map want_plus (map to_bent l), RBuf []).
Proof.
  induction sizes as [|size sizes IH]; intros W s k h off l H HW3 Has Hr Hoff Hs Hlen; [cbn in Hlen; lia|]. cbn [plus_cost] in HW3. pose proof (plus_cost_nonneg sizes) as Hcn.
  destruct (hist_inv _ _ _ _ H) as (HF & HA & HW). pose proof (fi_dr _ _ _ HF) as Hdr. pose proof (dr_inv _ _ _ Hdr) as Hi. assert (H63 : 2 ^ 63 < 2 ^ 64) by lia.
  destruct (asked s x) as [pp|] eqn:Ep; [|contradiction]. destruct (asked_parent _ _ _ Hi Ep) as (Hh & p & Hp & Hp0 & _).
  assert (Hx : u64 x) by (apply has_inode_iff in Hh as [i Hi']; apply (inode_range _ _ _ Hi Hi')).
  inversion Hr as [|? ? Hr1 Hr2]; subst. assert (H0 : 0 < size) by (destruct Hr1; lia). assert (Ew : w64 off = off) by (apply Z.mod_small; exact Hoff).
  set (s1 := Fst (s_db s) (s_refs s) (<[0 := (s_db s, x)]> (s_plus s))).
  assert (E1 : fstep s (QPlusBegin 0 x) = Done (s1, None)) by reflexivity.
  assert (H1 : hist (W + weight s (QPlusBegin 0 x)) s1 (kstep k (QPlusBegin 0 x) []) (h ++ [Ev s (QPlusBegin 0 x) []])).
  { eapply (hist_step W s k h (QPlusBegin 0 x) s1 None []); [exact H|exact I| |exact E1|reflexivity]. unfold enough. cbn [weight]. lia. }
  cbn [weight kstep] in H1. rewrite Z.add_0_r in H1. destruct (hist_inv _ _ _ _ H1) as (HF1 & HA1 & _).
  assert (Hid : s_plus s1 !! 0 = Some (s_db s, x)) by apply lookup_insert.
  destruct (h_plus_total W s1 k 0 size off _ _ HF1 Hid ltac:(cbn [weight]; lia)) as (l' & e' & pre & post & rep & Hs' & Hf & E2 & _ & _ & Hrep). cbn [s_refs s_db s1] in *. rewrite Ew in Hs'. destruct (scan_fun _ _ _ _ _ Hs _ _ Hs') as [<- <-].
  destruct (scan_rest (s_db s) x p off l 0 Hi Hx Hh Hp Hp0 Hs Hoff) as (_ & _ & Hall & _).
  assert (Hk : filter (kept (s_refs s)) (map to_bent l) = map to_bent l).
  { apply filter_id, Forall_forall. intros b Hb. apply elem_of_list_fmap in Hb as ([[c n] a] & -> & Hc). destruct (Hall _ _ _ Hc) as (Hin & _). exact (inl_kept _ _ _ _ _ _ _ HF Hx Hh Hp Hp0 Hin). }
  rewrite Hk in Hf. destruct Hrep as [[-> _]|(_ & Hne & _)]; [|contradiction].
  assert (Hsm : small (s_db s)). { destruct (dr_next _ _ _ Hdr) as (n & Hn & Hle). exists n. split; [exact Hn|]. lia. }
  pose proof (scan_bents _ _ _ _ _ Hi (proj1 HA) Hsm Hs) as Hb. assert (Hbp : Forall bent_ok pre) by (eapply fits_sub; eassumption).
  cbn [read_all_plus]. rewrite E1. set (s2 := Fst (s_db s) (fold_left lock1 (touched size pre post) (s_refs s)) (delete 0 (s_plus s1))).
  assert (E3 : fstep s1 (QPlusRun 0 size off) = Done (s2, Some [RBuf (concat (map rec_plus pre))])) by (cbn [fstep]; rewrite E2; reflexivity). rewrite E3. rewrite (reads_plus pre Hbp).
  destruct Hf as (El & Hf & _). destruct (Hf H0) as [Hf1 Hf2]. apply map_eq_app in El as (l1 & l2 & -> & <- & <-). destruct (last l1) as [[[c n] a]|] eqn:Elast.
  - pose proof Elast as Elast0. apply last_Some in Elast as [l1' El1]. assert (Hlast : last (map want_plus (map to_bent l1)) = Some (want_plus (to_bent (c, n, a)))) by (rewrite El1, !map_app; apply last_snoc). rewrite Hlast.
    destruct (Hall c n a) as (Hin & _); [rewrite El1; set_solver|]. destruct (inl_has _ _ _ _ _ Hi Hp Hp0 Hx Hh Hin) as (_ & _ & Hcu).
    cbn [to_bent want_plus want kp_ent ke_off be_off]. replace (w64 c) with c by (symmetry; apply Z.mod_small; exact Hcu).
    assert (Hen : enough W s1 (QPlusRun 0 size off)) by (unfold enough; cbn [weight]; lia).
    assert (H2 : hist (W + weight s1 (QPlusRun 0 size off)) s2 (kstep k (QPlusRun 0 size off) [RBuf (concat (map rec_plus (map to_bent l1)))]) ((h ++ [Ev s (QPlusBegin 0 x) []]) ++ [Ev s1 (QPlusRun 0 size off) [RBuf (concat (map rec_plus (map to_bent l1)))]])).
    { eapply (hist_step W s1 k _ (QPlusRun 0 size off) s2 _ _ H1); [cbn [klegal]; rewrite Hid; discriminate|exact Hen|exact E3|]. cbn [sent_of]. apply answer_one. }
    rewrite (IH _ s2 _ _ c l2 H2).
    + rewrite !map_app. reflexivity.
    + cbn [weight]. lia.
    + unfold asked in *. cbn [s_db s2]. rewrite Ep. discriminate.
    + exact Hr2.
    + exact Hcu.
    + cbn [s_db s2]. eapply scan_after_last; [exact Hs|exact Elast0].
    + rewrite app_length, El1, app_length in Hlen. cbn in Hlen. lia.
  - apply last_None in Elast as ->. cbn [map concat app last]. destruct l2 as [|[[c n] a] l2]; [reflexivity|]. exfalso. cbn [app map to_bent be_name total_size fold_right] in Hf2.
    destruct (Hall c n a) as (Hin & _); [left|]. pose proof (roomy_plus_inl _ _ _ _ _ _ Hi Hx Hr1 Hin). unfold total_size in Hf2. cbn in Hf2. lia.
Qed.
