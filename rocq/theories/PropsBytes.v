(** Property theorems C74: the file system down to the bytes of its database.
    [bfopen]/[bfrun] (FsBytes.v): the handlers of fs.cpp on tables of byte strings, in which every key
    is put together and every record serialised, copied and parsed as the code does it, starting from an
    empty database file.  [fopen]/[frun]: the handlers on decoded tables, which C33-C42 and C67-C72 are about. *)
From Verif Require Import FsBytesSim FsPlay PropsFs LmdbDamage PropsDamage.

Definition same_end (x : outcome (list (option (list reply)) * bfstate)) (y : outcome (list (option (list reply)) * fstate)) : Prop :=
  match x, y with
  | Done (os, bs), Done (os', s) => os = os' /\ same_reads (bs_db bs) (s_db s) /\ bs_refs bs = s_refs s
  | Throw, Throw | Crash, Crash | Diverge, Diverge => True
  | _, _ => False
  end.
(** For every padding of the records, every root and every list of requests, legal or not, interrupted by
    restarts or not, and every answer of the backend: the file system on bytes ends as the decoded one
    ends (normally, with an exception, a failed assertion, an endless loop) and makes the same replies. *)
Theorem C74_same : forall pad root l, attrs_ok root -> Forall req_ok l ->
  same_end (dlet s := bfopen pad root in bfrun pad s l) (dlet s := fopen root in frun s l).
Proof.
  intros pad root l Ha Hl. pose proof (osim_bind _ (fun a b => a.1 = b.1 /\ RF a.2 b.2) _ _ (fun s => bfrun pad s l) (fun s => frun s l) (s_fopen pad root Ha) (fun bs s H => s_frun pad l bs s H Hl)) as H.
  destruct H as [[os bs] [os' s] [E HF]| | |]; cbn [same_end]; try exact I. cbn [fst snd] in *. split; [exact E|]. split; [apply rep_reads, (rf_db _ _ HF)|apply (rf_refs _ _ HF)].
Qed.
Print Assumptions C74_same.
(** the uninitialised padding bytes of a record never show *)
Theorem C74_padding : forall pad pad' root l os bs, attrs_ok root -> Forall req_ok l -> (dlet s := bfopen pad root in bfrun pad s l) = Done (os, bs) ->
  exists bs', (dlet s := bfopen pad' root in bfrun pad' s l) = Done (os, bs').
Proof.
  intros pad pad' root l os bs Ha Hl E. pose proof (C74_same pad root l Ha Hl) as H1. pose proof (C74_same pad' root l Ha Hl) as H2. rewrite E in H1.
  destruct (dlet s := fopen root in frun s l) as [[ys v]| | |]; try contradiction. destruct (dlet s := bfopen pad' root in bfrun pad' s l) as [[zs w]| | |]; try contradiction.
  destruct H1 as [<- _]. destruct H2 as [-> _]. eauto.
Qed.

(** ** The histories of the other theorems *)
Lemma frun_snoc l q : forall s os s1 s2 o, frun s l = Done (os, s1) -> fstep s1 q = Done (s2, o) -> frun s (l ++ [q]) = Done (os ++ [o], s2).
Proof.
  induction l as [|q' l IH]; intros s os s1 s2 o E1 E2; cbn [frun app] in *.
  - injection E1 as <- <-. rewrite E2. reflexivity.
  - destruct (fstep s q') as [[s3 o3]| | |]; cbn [obind] in *; try discriminate E1. destruct (frun s3 l) as [[os3 s4]| | |] eqn:E3; cbn [obind] in *; try discriminate E1. injection E1 as <- <-.
    rewrite (IH _ _ _ _ _ E3 E2). reflexivity.
Qed.
Lemma hist_frun W s k h : hist W s k h -> exists root os, attrs_ok root /\ (dlet s := fopen root in frun s (map ev_q h)) = Done (os, s) /\ Forall2 (fun o e => sent_of o = (ev_sent e, false)) os h.
Proof.
  induction 1 as [root d r Ha E|W s k h q s' o sent H IH Hl Hen E Es].
  - exists root, []. split; [exact Ha|]. unfold fopen. rewrite E. split; [reflexivity|constructor].
  - destruct IH as (root & os & Ha & Er & Hf). exists root, (os ++ [o]). split; [exact Ha|]. split.
    + destruct (fopen root) as [s0| | |]; cbn [obind] in *; try discriminate Er. rewrite map_app. cbn [map ev_q]. eapply frun_snoc; eassumption.
    + apply Forall2_app; [exact Hf|]. constructor; [exact Es|constructor].
Qed.
(** Every history of the theorems about the file system (C33-C42, C67-C72) is one of the file system on bytes: it
    gets through without a failed assertion, every request is answered the same, and in the end every
    record of every table is well-formed and every read of the cache gives what it gives there. *)
Theorem C74_history : forall W s k h, hist W s k h -> Forall req_ok (map ev_q h) -> exists root, attrs_ok root /\
  forall pad, exists os bs, (dlet s := bfopen pad root in bfrun pad s (map ev_q h)) = Done (os, bs) /\
    Forall2 (fun o e => sent_of o = (ev_sent e, false)) os h /\ well_formed (bs_db bs) /\ same_reads (bs_db bs) (s_db s) /\ bs_refs bs = s_refs s.
Proof.
  intros W s k h H Hq. destruct (hist_frun _ _ _ _ H) as (root & os & Ha & Er & Hf). exists root. split; [exact Ha|]. intros pad.
  pose proof (osim_bind _ (fun a b => a.1 = b.1 /\ RF a.2 b.2) _ _ (fun s => bfrun pad s (map ev_q h)) (fun s => frun s (map ev_q h)) (s_fopen pad root Ha) (fun bs s H => s_frun pad _ bs s H Hq)) as HS. rewrite Er in HS.
  inversion HS as [[os' bs] ? [E HF] E1 E2| | |]; subst; clear HS. cbn [fst snd] in *. subst os'. exists os, bs. split; [reflexivity|]. split; [exact Hf|].
  destruct (hist_inv _ _ _ _ H) as (HI & _). split; [apply (rep_well_formed _ (s_db s)); [apply (rf_db _ _ HF)|exact (dr_inv _ _ _ (fi_dr _ _ _ HI))]|]. split; [apply rep_reads, (rf_db _ _ HF)|apply (rf_refs _ _ HF)].
Qed.
Print Assumptions C74_history.
(** The next request of such a history, whatever it is, is handled on bytes: no assertion fails, no
    exception, no endless loop. *)
Theorem C74_next : forall W s k h q, hist W s k h -> klegal k s q -> enough W s q -> Forall req_ok (map ev_q h ++ [q]) -> exists root, attrs_ok root /\
  forall pad, exists os o bs, (dlet s := bfopen pad root in bfrun pad s (map ev_q h ++ [q])) = Done (os ++ [o], bs) /\
    Forall2 (fun o e => sent_of o = (ev_sent e, false)) os h /\
    (exists s', fstep s q = Done (s', o)) /\
    match q with QPlusBegin _ _ | QRestart _ => o = None | _ => exists r, (sent_of o).1 = [r] /\ (r = RNone <-> unacknowledged q) end.
Proof.
  intros W s k h q H Hl Hen Hq. destruct (hist_frun _ _ _ _ H) as (root & os & Ha & Er & Hf). exists root. split; [exact Ha|]. intros pad.
  destruct (C33_one_reply_partial _ _ _ _ _ H Hl Hen) as (s' & o & E & Ho & _).
  assert (Er' : (dlet s := fopen root in frun s (map ev_q h ++ [q])) = Done (os ++ [o], s')). { destruct (fopen root) as [s0| | |]; cbn [obind] in *; try discriminate Er. eapply frun_snoc; eassumption. }
  pose proof (C74_same pad root _ Ha Hq) as HS. rewrite Er' in HS. destruct (dlet s := bfopen pad root in bfrun pad s (map ev_q h ++ [q])) as [[os' bs]| | |]; try contradiction. destruct HS as [-> _].
  exists os, o, bs. split; [reflexivity|]. split; [exact Hf|]. split; [eauto|exact Ho].
Qed.
Print Assumptions C74_next.

(** ** A damaged database *)
(** The tables may hold anything (LmdbDamage.v).  getattr is always answered, and changes nothing: *)
Theorem C74_damaged_getattr : forall pad s x, real_db (bs_db s) -> exists r, record_says (bs_db s) x r /\
  bfstep pad s (QGetattr x) = Done (s, Some [match r with Ok i => RAttr x (i_attr i) | Err e => RErr e end]).
Proof.
  intros pad s x HR. destruct (C73_inode_reads _ x 0 HR) as (r & Hr & Hg & _). exists r. split; [exact Hr|]. cbn [bfstep]. unfold bh_getattr. rewrite Hg. cbn [obind]. destruct r; reflexivity.
Qed.
(** While the backend cannot be reached, a lookup ends the process with a failed assertion exactly if
    there is an unreadable entry in this directory or in one that comes later, and no entry before it
    ends the search (as C73_lookup_crash); otherwise it is answered. *)
Theorem C74_damaged_lookup : forall pad s b p n pp, real_db (bs_db s) -> u64 p -> p <> INVALID_INO -> (length n <= 503)%nat ->
  b_path (bs_db s) p = Done (Ok pp) -> b_lstat b 0 (pp ++ [47] ++ n) = Err ENOTCONN ->
  (bfstep pad s (QLookup b p n) = Crash <-> exists k v, b_treen (bs_db s) !! k = Some v /\ ble (le64 p) k /\ bad_entry k v /\
     forall k' v', b_treen (bs_db s) !! k' = Some v' -> ble (le64 p) k' -> blt k' k -> ~ settles p n k') /\
  (bfstep pad s (QLookup b p n) <> Crash -> exists s' r, bfstep pad s (QLookup b p n) = Done (s', Some [r]) /\ bs_db s' = bs_db s).
Proof.
  intros pad s b p n pp HR Hp Hp0 Hn Hpp Hb. rewrite <- (C73_lookup_crash _ p n HR Hp Hp0 Hn).
  assert (Hc : b_lookup (bs_db s) p n = Crash -> bfstep pad s (QLookup b p n) = Crash).
  { intros E. cbn [bfstep]. unfold bh_lookup. cbn [bt_db bbegin_tx]. rewrite Hpp. cbn [obind]. rewrite Hb, E. reflexivity. }
  assert (Hd : b_lookup (bs_db s) p n <> Crash -> exists s' r, bfstep pad s (QLookup b p n) = Done (s', Some [r]) /\ bs_db s' = bs_db s).
  { intros Hnc. cbn [bfstep]. unfold bh_lookup. cbn [bt_db bbegin_tx]. rewrite Hpp. cbn [obind]. rewrite Hb. change (ENOTCONN =? ENOTCONN) with true. cbn iota.
    destruct (C73_lookup_total _ p n HR Hp Hp0 Hn) as [E|[E|[i E]]]; [contradiction| |]; rewrite E; cbn [obind].
    - change (ENOENT =? ENOENT) with true. cbn iota. destruct (C73_inode_reads _ p SYNCED HR) as (r & _ & _ & Hf & _). rewrite Hf. cbn [obind]. destruct r as [i|e]; cbn [on_ok]; [destruct (flag_test _ _)|]; unfold bdropped; cbn [obind]; eexists _, _; split; reflexivity.
    - destruct (C73_inode_reads _ i 0 HR) as (r & _ & Hg & _). rewrite Hg. cbn [obind]. destruct r as [x|e]; cbn [on_ok]; [|unfold bdropped; cbn [obind]; eexists _, _; split; reflexivity].
      unfold b_lock. destruct (incref _ _ _) as [[u|e] rr]; cbn [obind]; unfold bcommitted, bdropped; cbn [obind]; eexists _, _; split; reflexivity. }
  split; [|intros Hnc; apply Hd; intros E; apply Hnc, Hc, E]. split; [|exact Hc].
  intros E. destruct (C73_lookup_total _ p n HR Hp Hp0 Hn) as [E'|E']; [exact E'|]. exfalso. destruct Hd as (s' & r & E2 & _); [destruct E' as [->|[i ->]]; discriminate|]. congruence.
Qed.
(** If the parents of a directory never lead to the root, every lookup, readlink and opendir of it (or in
    it) runs for ever, whatever the backend says, in a thread that holds the only write transaction: *)
Theorem C74_damaged_loop : forall pad s b x n, b_path (bs_db s) x = Diverge ->
  bfstep pad s (QLookup b x n) = Diverge /\ bfstep pad s (QReadlink b x) = Diverge /\ bfstep pad s (QOpendir b x) = Diverge.
Proof. intros pad s b x n E. cbn [bfstep]. unfold bh_lookup, bh_readlink, bh_opendir. cbn [bt_db bbegin_tx]. rewrite E. auto. Qed.
Print Assumptions C74_damaged_getattr.
Print Assumptions C74_damaged_lookup.
Print Assumptions C74_damaged_loop.

(** ** Samples *)
Definition qs74 : list request := [QLookup online 1 nD; QOpendir online 2; QLookup online 2 nG; QReaddir 2 4096 0; QPlusBegin 7 2; QPlusRun 7 4096 0; QForget 2 1; QRestart rootA; QGetattr 2; QLookup offline 1 nD; QReaddir 2 4096 0].
Lemma qs74_ok : Forall q_ok qs74.
Proof. unfold qs74. repeat (apply Forall_cons; split; [first [exact online_ok|exact offline_ok|exact I]|]). apply Forall_nil; exact I. Qed.
Example C74_sample : hist (sW qs74) (sS qs74) (sK qs74) (sH qs74) /\ length (sH qs74) = 11%nat /\ Forall req_ok qs74 /\ klegal (sK qs74) (sS qs74) (QOpendir offline 2) /\ enough (sW qs74) (sS qs74) (QOpendir offline 2) /\
  match (dlet s := bfopen (fun _ => 7) rootA in bfrun (fun _ => 7) s qs74) with
  | Done (os, bs) => (length os, map (fun o => length (sent_of o).1) os, size (b_inodes (bs_db bs)), length <$> b_inodes (bs_db bs) !! le64 2) = (11%nat, [1; 1; 1; 1; 0; 1; 1; 0; 1; 1; 1]%nat, 4%nat, Some 96%nat)
  | _ => False
  end.
Proof.
  split; [apply sess_hist; exact qs74_ok|]. split; [vm_compute; reflexivity|]. split.
  - unfold qs74. repeat (apply Forall_cons; split; [cbn [req_ok]; first [exact I|split; [unfold u64; lia|first [exact online_ok|exact offline_ok]]|unfold u64; lia|exact rootA_ok]|]). apply Forall_nil; exact I.
  - split; [apply klegalb_ok; [exact offline_ok|vm_compute; reflexivity]|]. split; [vm_compute; reflexivity|]. vm_compute. reflexivity.
Qed.
Definition dmg_fs : bfstate := BFst dmg ∅ ∅.
Example C74_damaged_sample : real_db (bs_db dmg_fs) /\ b_path (bs_db dmg_fs) 2 = Done (Ok [47; 100]) /\ b_lstat offline 0 ([47; 100] ++ [47] ++ [98; 98]) = Err ENOTCONN /\ b_path (bs_db dmg_fs) 5 = Diverge /\
  bfstep (fun _ => 0) dmg_fs (QLookup offline 2 [98; 98]) = Crash /\ bfstep (fun _ => 0) dmg_fs (QOpendir offline 5) = Diverge /\
  match bfstep (fun _ => 0) dmg_fs (QLookup offline 1 [100]), bfstep (fun _ => 0) dmg_fs (QGetattr 4) with
  | Done (_, Some [REntry 2 _]), Done (_, Some [RErr e]) => e = EINVAL
  | _, _ => False
  end.
Proof. split; [exact C73_sample_real|]. split_and!; vm_compute; reflexivity. Qed.
