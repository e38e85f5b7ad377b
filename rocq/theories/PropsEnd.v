(** Property C49: the file system on top of the in-memory backend, end to end. *)
From Verif Require Export PropsMem2 PropsFs.

(** ** The backend a request sees when the in-memory file system is in state [m] all along *)
Record speaks_for (lim : Z) (ord : gmap bytes Z -> list bytes) (m : mem) (b : backend) : Prop := {
  sf_lstat : forall i p, mstep lim ord m (MLstat p) = Done (MStat (b_lstat b i p), m);
  sf_readlink : forall p, mstep lim ord m (MReadlink p) = Done (MBytes (b_readlink b p), m);
  sf_opendir : forall p, match b_opendir b p with
    | Err e => mstep lim ord m (MOpendir p) = Done (MHandle (Err e), m)
    | Ok (names, e) => exists h m1 m2, mstep lim ord m (MOpendir p) = Done (MHandle (Ok h), m1) /\ names_read lim ord m1 h names e m2
    end }.

Lemma names_read_fun lim ord m h l e m' : names_read lim ord m h l e m' -> forall l2 e2 m2, names_read lim ord m h l2 e2 m2 -> l = l2 /\ e = e2.
Proof.
  induction 1 as [m h e m' E|m h nm m1 l e m' E H IH]; intros l2 e2 m2 H2.
  - inversion H2 as [? ? e' ? E'|? ? nm' m1' l' e' ? E' H']; subst; rewrite E in E'; [injection E' as -> ->; auto|discriminate E'].
  - inversion H2 as [? ? e' ? E'|? ? nm' m1' l' e' ? E' H']; subst; rewrite E in E'; [discriminate E'|injection E' as -> ->]. destruct (IH _ _ _ H') as [-> ->]. auto.
Qed.
Lemma spell_snoc comps n : spell (comps ++ [n]) = spell comps ++ [47] ++ n.
Proof. unfold spell. rewrite map_app, concat_app. cbn. rewrite app_nil_r. reflexivity. Qed.
Lemma spelled_path comps : Forall component comps -> spelled (backend_path (spell comps)) comps false.
Proof.
  intros H. destruct comps as [|c cs]; [constructor|]. cbn. apply (sp_plain (c :: cs)); [discriminate|exact H].
Qed.
Lemma join_spell comps n : Forall component comps -> join_path (backend_path (spell comps)) n = spell (comps ++ [n]).
Proof.
  intros H. rewrite spell_snoc. destruct H as [|c cs [Hc _] _]; [reflexivity|]. unfold join_path. destruct c as [|x c]; [contradiction|]. reflexivity.
Qed.
Lemma spelled_child comps n : Forall component comps -> component n -> spelled (spell (comps ++ [n])) (comps ++ [n]) false.
Proof. intros Hc Hn. apply sp_plain; [destruct comps; discriminate|]. apply Forall_app. auto. Qed.
Lemma last_index (l : list bytes) n : n ∈ l -> exists i, l !! i = Some n /\ forall j, (i < j)%nat -> l !! j <> Some n.
Proof.
  induction l as [|x l IH]; intros H; [apply elem_of_nil in H; contradiction|]. destruct (decide (n ∈ l)) as [Hin|Hout].
  - destruct (IH Hin) as (i & Hi & Hlast). exists (S i). split; [exact Hi|]. intros [|j] Hj; [lia|]. apply Hlast. lia.
  - apply elem_of_cons in H as [->|H]; [|contradiction]. exists 0%nat. split; [reflexivity|]. intros [|j] Hj; [lia|]. intros Hj'. apply Hout. eapply elem_of_list_lookup_2. exact Hj'.
Qed.

Section EndToEnd.
  Context (lim : Z) (ord : gmap bytes Z -> list bytes) (m : mem) (tr : list mev) (b : backend).
  Context (Hlim : lim < 2 ^ 63) (Hord : enumerates ord) (Hm : mhist lim ord m tr) (Hb : speaks_for lim ord m b).
  Lemma mem_backend_ok : backend_ok b.
  Proof.
    pose proof (ci_inv _ _ (mhist_inv _ _ _ _ Hlim Hm)) as HI. split.
    - intros i p st E. pose proof (sf_lstat _ _ _ _ Hb i p) as El. rewrite E in El. cbn [mstep] in El. destruct (with_node_total m p _ _ _ _ HI El) as [(e & Hr & _)|(id & n & _ & _ & Hn & Hr)]; [discriminate Hr|]. injection Hr as <-. apply (ni_type _ _ (mi_nodes _ HI) _ _ Hn).
    - intros p l E. pose proof (sf_readlink _ _ _ _ Hb p) as El. rewrite E in El. cbn [mstep] in El. destruct (with_node_total m p _ _ _ _ HI El) as [(e & Hr & _)|(id & [a bd ow] & _ & _ & Hn & Hr)]; [discriminate Hr|]. destruct bd as [d|d|k]; cbn in Hr; try discriminate Hr. injection Hr as <-. pose proof (ni_data _ _ (mi_nodes _ HI) _ _ _ _ Hn) as Hd0. cbn in Hd0. lia.
  Qed.
  Context (Hconn : m_conn m = true).
  Lemma mem_lstat i p comps : spelled p comps false ->
    (forall x, at_path m comps x -> exists n, m_nodes m !! x = Some n /\ b_lstat b i p = Ok (nd_attr n)) /\
    (missing m comps -> b_lstat b i p = Err ENOENT) /\ (blocked m comps -> b_lstat b i p = Err ENOTDIR).
  Proof.
    intros Hs. pose proof (sf_lstat _ _ _ _ Hb i p) as El. split; [|split].
    - intros x Hx. destruct (C44_found lim ord m tr Hlim Hm (MLstat p) p comps Hconn eq_refl false x Hs Hx) as (n & r & m' & Hn & E & Hr); [discriminate|]. rewrite El in E. injection E as <- <-. cbn in Hr. destruct Hr as [Hr _]. injection Hr as Hr. eauto.
    - intros Hx. rewrite (C44_missing lim ord m tr Hlim Hm (MLstat p) p comps Hconn eq_refl false Hs Hx) in El. injection El as El. auto.
    - intros Hx. rewrite (C44_blocked lim ord m tr Hlim Hm (MLstat p) p comps Hconn eq_refl false Hs (or_introl Hx)) in El. injection El as El. auto.
  Qed.
  (** Lookup: what the tree has under that name is what the kernel is told and what the cache has
      afterwards. *)
  Theorem C49_lookup : forall W s k h p comps n, hist W s k h -> kdir k p -> enough W s (QLookup b p n) -> asked s p = Some (spell comps) -> Forall component comps -> component n -> good_name n ->
    (forall x, at_path m (comps ++ [n]) x -> exists nd c s', m_nodes m !! x = Some nd /\ handles s (QLookup b p n) [REntry c (from_backend_stat (nd_attr nd))] s' /\ lookup (s_db s') p n = Ok c /\ getattr (s_db s') c = Ok (from_backend_stat (nd_attr nd))) /\
    ((forall x, ~ at_path m (comps ++ [n]) x) -> exists e s', handles s (QLookup b p n) [RErr e] s' /\ (e = ENOENT \/ e = ENOTDIR) /\ forall c, lookup (s_db s') p n <> Ok c).
  Proof.
    intros W s k h p comps n H Hk Hen Hask Hc Hn Hg. pose proof (spelled_child comps n Hc Hn) as Hs. destruct (mem_lstat 0 _ _ Hs) as (L1 & L2 & L3). rewrite spell_snoc in L1, L2, L3.
    assert (Hl : klegal k s (QLookup b p n)) by (split; [exact Hk|exact mem_backend_ok]). split.
    - intros x Hx. destruct (L1 x Hx) as (nd & Hnd & El). destruct (C34_connected W s k h b p n _ _ H Hl Hen Hask El Hg) as (c & s' & Hh & Hlk & Hga & _). exists nd, c, s'. auto.
    - intros Hno. destruct (C44_trichotomy lim ord m tr (comps ++ [n]) Hlim Hm) as ([[x Hx]|[Hx|Hx]] & _); [destruct (Hno _ Hx)|..].
      + destruct (C34_connected_error W s k h b p n _ _ H Hl Hen Hask (L2 Hx)) as (s' & Hh & Hlk); [discriminate|]. eauto 6.
      + destruct (C34_connected_error W s k h b p n _ _ H Hl Hen Hask (L3 Hx)) as (s' & Hh & Hlk); [discriminate|]. eauto 6.
  Qed.
  (** Opendir: the cached directory becomes the directory of the tree. *)
  Theorem C49_opendir : forall W s k h x comps d, hist W s k h -> kdir k x -> enough W s (QOpendir b x) -> asked s x = Some (spell comps) -> Forall component comps -> at_path m comps d -> directory m d ->
    exists s', handles s (QOpendir b x) [ROpen] s' /\ test_flag (s_db s') x SYNCED = Ok true /\
      forall n a, component n -> good_name n -> (exists c, lookup (s_db s') x n = Ok c /\ getattr (s_db s') c = Ok a) <-> exists y nd, at_path m (comps ++ [n]) y /\ m_nodes m !! y = Some nd /\ a = from_backend_stat (nd_attr nd).
  Proof.
    intros W s k h x comps d H Hk Hen Hask Hc Hd Hdir. assert (Hl : klegal k s (QOpendir b x)) by (split; [exact Hk|exact mem_backend_ok]).
    pose proof (spelled_path comps Hc) as Hs. destruct (C44_found lim ord m tr Hlim Hm (MOpendir (backend_path (spell comps))) _ comps Hconn eq_refl false d Hs Hd) as (nd & r & m1 & Hnd & Eo & Hr); [discriminate|].
    destruct Hdir as (da & kids & dow & Hdn). rewrite Hnd in Hdn. injection Hdn as ->. cbn [of_node nd_body] in Hr. destruct Hr as (hd & -> & _).
    destruct (C44_listing lim ord m tr _ comps false m1 Hlim Hord Hm Hs hd Eo) as (names & m2 & Hnr & _ & Hnames & _).
    pose proof (sf_opendir _ _ _ _ Hb (backend_path (spell comps))) as Hob. destruct (b_opendir b (backend_path (spell comps))) as [[l e]|e] eqn:Eb; [|rewrite Eo in Hob; discriminate Hob]. destruct Hob as (hd' & m1' & m2' & Eo' & Hnr'). rewrite Eo in Eo'. injection Eo' as <- <-. destruct (names_read_fun _ _ _ _ _ _ _ Hnr _ _ _ Hnr') as [<- <-].
    destruct (C41_sync W s k h b x _ _ _ H Hl Hen Hask Eb) as (s' & Hh & Hf & Hiff). exists s'. split; [exact Hh|]. split; [exact Hf|]. intros n a Hn Hg. rewrite Hiff. unfold listed. rewrite (join_spell comps n Hc). pose proof (spelled_child comps n Hc Hn) as Hsn. split.
    - intros (_ & i & st & _ & El & -> & _). destruct (mem_lstat i _ _ Hsn) as (L1 & L2 & L3). destruct (C44_trichotomy lim ord m tr (comps ++ [n]) Hlim Hm) as ([[y Hy]|[Hy|Hy]] & _); [|rewrite (L2 Hy) in El; discriminate El|rewrite (L3 Hy) in El; discriminate El]. destruct (L1 y Hy) as (ny & Hny & El'). rewrite El in El'. injection El' as ->. eauto.
    - intros (y & ny & Hy & Hny & ->). split; [exact Hg|]. destruct (last_index (DOT :: DOTDOT :: names) n) as (i & Hi & Hlast); [rewrite !elem_of_cons; right; right; apply Hnames; eauto|]. destruct (mem_lstat i _ _ Hsn) as (L1 & _). destruct (L1 y Hy) as (ny' & Hny' & El). rewrite Hny in Hny'. injection Hny' as <-.
      exists i, (nd_attr ny). split; [exact Hi|]. split; [exact El|]. split; [reflexivity|]. intros j Hj Hj'. destruct (Hlast j Hj Hj').
  Qed.
  (** The connection is lost right after that: every lookup in the directory is answered from the
      listing, as the tree was, and names that were not there get ENOENT. *)
  Theorem C49_offline : forall W s k h x comps d b2 n s1 pp, hist W s k h -> kdir k x -> enough W s (QOpendir b x) -> asked s x = Some (spell comps) -> Forall component comps -> at_path m comps d -> directory m d ->
    handles s (QOpendir b x) [ROpen] s1 -> component n -> good_name n -> asked s1 x = Some pp -> klegal k s1 (QLookup b2 x n) -> enough (W + weight s (QOpendir b x)) s1 (QLookup b2 x n) -> b_lstat b2 0 (pp ++ [47] ++ n) = Err ENOTCONN ->
    exists s2 r, handles s1 (QLookup b2 x n) [r] s2 /\
      ((exists y nd c, at_path m (comps ++ [n]) y /\ m_nodes m !! y = Some nd /\ r = REntry c (from_backend_stat (nd_attr nd))) \/
       (forall y, ~ at_path m (comps ++ [n]) y) /\ r = RErr ENOENT).
  Proof.
    intros W s k h x comps d b2 n s1 pp H Hk Hen Hask Hc Hd Hdir Hh Hn Hg Hask1 Hl2 Hen2 El2. destruct (C49_opendir W s k h x comps d H Hk Hen Hask Hc Hd Hdir) as (s1' & Hh' & Hf & Hiff). destruct (handles_fun _ _ _ _ _ _ Hh Hh') as [_ <-].
    assert (H1 : hist (W + weight s (QOpendir b x)) s1 k (h ++ [Ev s (QOpendir b x) [ROpen]])). { destruct Hh as (o & E & Es). change k with (kstep k (QOpendir b x) [ROpen]). econstructor; try eassumption. split; [exact Hk|exact mem_backend_ok]. }
    destruct (hist_inv _ _ _ _ H1) as (HF & _ & _). pose proof (dr_inv _ _ _ (fi_dr _ _ _ HF)) as Hi. pose proof (kdir_is_dir _ _ _ _ HF Hk) as Hxd. assert (Hux : u64 x) by (destruct Hxd as (i & Hix & _); apply (inode_range _ _ _ Hi Hix)).
    destruct (C35_offline _ s1 k _ b2 x n pp H1 Hl2 Hen2 Hask1 El2 Hg) as (s2 & r & Hr & _ & Hbel). exists s2, r. split; [exact Hr|].
    destruct (belief_kn _ _ _ _ x n H1 (proj1 (good_name_iff n) Hg) Hux) as [Hlost|Hkn]; [destruct (asked_not_lost _ _ _ Hi Hask1 Hlost)|].
    destruct (belief (h ++ [Ev s (QOpendir b x) [ROpen]]) x n) as [a|].
    - left. destruct Hbel as (c & -> & _). destruct (proj1 (Hiff n a Hn Hg)) as (y & nd & Hy & Hny & ->); [|eauto 8]. destruct (proj2 (Hkn a) eq_refl) as [c' Hc']. exists c'. apply knows_kn in Hc'; assumption.
    - right. rewrite Hf in Hbel. split; [|exact Hbel]. intros y Hy. destruct (at_live _ _ _ _ (mi_nodes _ (ci_inv _ _ (mhist_inv _ _ _ _ Hlim Hm))) Hy) as [ny Hny]. destruct (proj2 (Hiff n (from_backend_stat (nd_attr ny)) Hn Hg)) as [c Hkc]; [eauto|]. assert (Hx : None = Some (from_backend_stat (nd_attr ny))) by (apply Hkn; exists c; apply knows_kn; assumption). discriminate Hx.
  Qed.
End EndToEnd.
Print Assumptions C49_lookup.
Print Assumptions C49_opendir.
Print Assumptions C49_offline.

(** ** Such a backend exists in every state *)
Definition mem_backend (lim : Z) (ord : gmap bytes Z -> list bytes) (m : mem) : backend :=
  Backend (fun _ p => match mstep lim ord m (MLstat p) with Done (MStat r, _) => r | _ => Err 0 end)
          (fun p => match mstep lim ord m (MReadlink p) with Done (MBytes r, _) => r | _ => Err 0 end)
          (fun p => match mstep lim ord m (MOpendir p) with
             | Done (MHandle (Ok h), m1) => match m_dh m1 !! h with Some dh => Ok (DOT :: DOTDOT :: dh_left dh, 0) | None => Err 0 end
             | Done (MHandle (Err e), _) => Err e
             | _ => Err 0
             end).
Theorem C49_backend_exists : forall lim ord m tr, lim < 2 ^ 63 -> mhist lim ord m tr -> speaks_for lim ord m (mem_backend lim ord m).
Proof.
  intros lim ord m tr Hlim H. pose proof (ci_inv _ _ (mhist_inv _ _ _ _ Hlim H)) as HI. split.
  - intros i p. cbn [mem_backend b_lstat]. destruct (C43_safe lim ord m tr (MLstat p) Hlim H I I) as (r & m' & E). rewrite E. cbn [mstep] in E. destruct (with_node_total m p _ _ _ _ HI E) as [(e & -> & ->)|(id & n & _ & _ & Hn & Hr)]; [reflexivity|]. injection Hr as <- <-. reflexivity.
  - intros p. cbn [mem_backend b_readlink]. destruct (C43_safe lim ord m tr (MReadlink p) Hlim H I I) as (r & m' & E). rewrite E. cbn [mstep] in E. destruct (with_node_total m p _ _ _ _ HI E) as [(e & -> & ->)|(id & n & _ & _ & Hn & Hr)]; [reflexivity|]. injection Hr as <- <-. reflexivity.
  - intros p. cbn [mem_backend b_opendir]. destruct (C43_safe lim ord m tr (MOpendir p) Hlim H I I) as (r & m' & E). rewrite E. cbn [mstep] in E. destruct (with_node_total m p _ _ _ _ HI E) as [(e & -> & ->)|(id & [a bd ow] & _ & _ & Hn & Hr)]; [reflexivity|]. destruct bd as [d|d|kids]; cbn [nd_body] in Hr; injection Hr as <- <-; try reflexivity.
    cbn [m_dh]. rewrite lookup_insert. cbn [dh_left].
    set (dm := fun st rest => Mem (m_nodes m) (m_next m) (m_conn m) (m_fh m) (<[m_hnext m := Dirh id st rest kids]> (m_dh m)) (m_hnext m + 1)).
    assert (Hi : forall rest, names_read lim ord (dm SIter rest) (m_hnext m) rest 0 (dm SIter [])).
    { induction rest as [|nm rest IH].
      - apply nr_end. unfold dm. cbn [mstep m_dh]. rewrite lookup_insert. cbn [m_nodes]. rewrite Hn, decide_True by reflexivity. reflexivity.
      - apply nr_name with (dm SIter rest); [|exact IH]. unfold dm. cbn [mstep m_dh]. rewrite lookup_insert. cbn [m_nodes m_next m_conn m_fh m_hnext]. rewrite Hn, decide_True by reflexivity. rewrite insert_insert. reflexivity. }
    exists (m_hnext m), (dm SDot (ord kids)), (dm SIter []). split; [reflexivity|]. apply nr_name with (dm SDotdot (ord kids)); [unfold dm; cbn [mstep m_dh]; rewrite lookup_insert; cbn [m_nodes m_next m_conn m_fh m_hnext]; rewrite insert_insert; reflexivity|].
    apply nr_name with (dm SIter (ord kids)); [unfold dm; cbn [mstep m_dh]; rewrite lookup_insert; cbn [m_nodes m_next m_conn m_fh m_hnext]; rewrite insert_insert; reflexivity|]. apply Hi.
Qed.
Print Assumptions C49_backend_exists.
