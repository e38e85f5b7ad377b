(** Properties C65 and C66: the mount command. *)
From Verif Require Export Mount.
From Verif Require Import PropsLinks PropsEnd.

(** ** C65 *)
(** What a list of actions leaves behind: resources are given back in the reverse order, nothing
    is given back that is not held, and requests are served only with everything in place. *)
Fixpoint held (st : list resource) (tr : list act) : option (list resource) :=
  match tr with
  | [] => Some st
  | Acquire r :: tr => held (r :: st) tr
  | Refused _ :: tr | Detach _ :: tr => held st tr
  | Release r :: tr => match st, r with
      | RCache :: st, RCache | RSession :: st, RSession | RHandlers :: st, RHandlers | RMount :: st, RMount => held st tr
      | _, _ => None
      end
  | Serve _ :: tr => match st with [RMount; RHandlers; RSession; RCache] => held st tr | _ => None end
  end.
Ltac mount_cases := unfold main, execute; repeat (match goal with |- context [if ?x then _ else _] => destruct x eqn:? | |- context [match chosen ?o with _ => _ end] => destruct (chosen o) eqn:? end; cbn [negb fst snd app obind andb orb]).
(** However the program ends, it has given back the mount and the signal handlers; if it ends
    normally, the session and the cache too; and it gives back nothing it does not hold. *)
Theorem C65_undone : forall o w, match main o w with
  | (tr, Done _) => held [] tr = Some []
  | (tr, _) => exists st, held [] tr = Some st /\ RMount ∉ st /\ RHandlers ∉ st
  end.
Proof. intros o w. mount_cases; try reflexivity; eexists; (split; [reflexivity|]); split; intros Hin; repeat (apply elem_of_cons in Hin as [Hin|Hin]; [discriminate Hin|]); inversion Hin. Qed.
Print Assumptions C65_undone.
(** The file system is served exactly if the command line is right and every step succeeds, with
    the backend that the command line names, once, and in the foreground exactly if -d or -f says so. *)
Theorem C65_served : forall o w b, Serve b ∈ (main o w).1 <->
  parse_ok o = true /\ o_mount o = true /\ an_cache w = true /\ an_session w = true /\ an_handlers w = 0 /\ an_mount w = 0 /\
  match b with
  | Disconnected => (0 < o_disc o)%nat
  | LocalDir p => o_disc o = 0%nat /\ (0 < o_local o)%nat /\ p = o_path o
  end.
Proof.
  intros o w b.
  assert (Hch : forall c, chosen o = Some c -> (c = b <-> match b with Disconnected => (0 < o_disc o)%nat | LocalDir p => o_disc o = 0%nat /\ (0 < o_local o)%nat /\ p = o_path o end)).
  { intros c. unfold chosen. destruct (Nat.eqb_spec (o_disc o) 0); cbn [negb]; [destruct (Nat.eqb_spec (o_local o) 0); cbn [negb]; [discriminate|]|]; intros E; injection E as <-; destruct b; split; intros H; try discriminate H; try reflexivity; try (destruct H as (? & ? & ->)); try reflexivity; try lia. injection H as <-. repeat split; lia. }
  assert (Hno : chosen o = None -> ~ match b with Disconnected => (0 < o_disc o)%nat | LocalDir p => o_disc o = 0%nat /\ (0 < o_local o)%nat /\ p = o_path o end).
  { unfold chosen. destruct (Nat.eqb_spec (o_disc o) 0); cbn [negb]; [destruct (Nat.eqb_spec (o_local o) 0); cbn [negb]; [|discriminate]|discriminate]. intros _. destruct b; lia. }
  assert (Hnil : Serve b ∈ @nil act -> False) by (intros Hin; inversion Hin).
  Local Ltac in_cons := repeat match goal with H : _ ∈ _ :: _ |- _ => apply elem_of_cons in H as [H|H]; [try discriminate H|] end.
  Local Ltac nope := split; [cbn; intros Hin; in_cons; exfalso; auto|intros (? & ? & ? & ? & ? & ? & ?); first [congruence|lia]].
  unfold main, execute. destruct (parse_ok o) eqn:E1; [|nope]. destruct (o_mount o) eqn:E2; [|nope]. destruct (an_cache w) eqn:E3; cbn [negb]; [|nope].
  destruct (chosen o) as [c|] eqn:Ec; [|split; [cbn; intros Hin; in_cons; exfalso; auto|intros (_ & _ & _ & _ & _ & _ & H7); destruct (Hno eq_refl H7)]].
  destruct (an_session w) eqn:E4; cbn [negb]; [|nope]. destruct (Z.eqb_spec (an_handlers w) 0) as [E5|E5]; cbn [negb]; [|nope]. destruct (Z.eqb_spec (an_mount w) 0) as [E6|E6]; cbn [negb]; [|nope].
  rewrite <- (Hch c eq_refl). cbn. split.
  - intros Hin. in_cons; [|exfalso; auto]. injection Hin as ->. repeat split; auto.
  - intros (_ & _ & _ & _ & _ & _ & ->). set_solver.
Qed.
Print Assumptions C65_served.
(** The command line: exactly one of the backend options must be given, and both arguments. *)
Theorem C65_options : forall o w, o_mount o = true ->
  (~ (exists! b : nat, (b = 0 /\ 0 < o_disc o \/ b = 1 /\ 0 < o_local o \/ b = 2 /\ 0 < o_ssh o)%nat) \/ o_cachedir o = None \/ o_mountpoint o = None) ->
  main o w = ([], Done (an_cli w)).
Proof.
  intros o w Hm H. unfold main. assert (parse_ok o = false) as ->; [|reflexivity]. unfold parse_ok. rewrite Hm. cbn [negb orb]. destruct H as [H|H].
  - apply andb_false_iff. left. apply Nat.eqb_neq. intros E. apply H. unfold given in E. destruct (Nat.eqb_spec (o_disc o) 0), (Nat.eqb_spec (o_local o) 0), (Nat.eqb_spec (o_ssh o) 0); try lia.
    + exists 2%nat. split; [lia|]. intros b. lia.
    + exists 1%nat. split; [lia|]. intros b. lia.
    + exists 0%nat. split; [lia|]. intros b. lia.
  - apply andb_false_iff. right. destruct (o_cachedir o), (o_mountpoint o); destruct H; congruence.
Qed.
(** Requests are served once, and the process detaches from the terminal before, unless -d or -f is given. *)
Theorem C65_detach : forall o w tr1 tr2 b, (main o w).1 = tr1 ++ Serve b :: tr2 ->
  (forall b', Serve b' ∉ tr1 ++ tr2) /\ exists tr0, tr1 = tr0 ++ [Detach (bool_decide (0 < o_debug o \/ 0 < o_fg o)%nat)].
Proof.
  intros o w tr1 tr2 b E.
  assert (Hs : Serve b ∈ (main o w).1) by (rewrite E; set_solver). apply C65_served in Hs as (E1 & E2 & E3 & E4 & E5 & E6 & _).
  assert (Hsh : exists c r, (main o w).1 = [Acquire RCache; Acquire RSession; Acquire RHandlers; Acquire RMount; Detach (negb (o_debug o =? 0)%nat || negb (o_fg o =? 0)%nat)] ++ Serve c :: r /\ r = [Release RMount; Release RHandlers; Release RSession; Release RCache]).
  { revert E. unfold main, execute. rewrite E1, E2, E3. cbn [negb]. destruct (chosen o) as [c|]; [|cbn; destruct tr1 as [|a [|]]; cbn; intros E; discriminate E]. intros _. rewrite E4, E5, E6. cbn. eauto. }
  destruct Hsh as (c & r & Hsh & ->). rewrite Hsh in E.
  assert (Hd : bool_decide (0 < o_debug o \/ 0 < o_fg o)%nat = negb (o_debug o =? 0)%nat || negb (o_fg o =? 0)%nat).
  { destruct (Nat.eqb_spec (o_debug o) 0), (Nat.eqb_spec (o_fg o) 0); cbn; [apply bool_decide_eq_false|apply bool_decide_eq_true..]; lia. }
  rewrite Hd. set (fg := negb (o_debug o =? 0)%nat || negb (o_fg o =? 0)%nat) in *. clearbody fg. clear - E.
  do 5 (destruct tr1 as [|? tr1]; [cbn in E; discriminate E|]; cbn in E; injection E as <- E).
  destruct tr1 as [|? tr1].
  - cbn in E. injection E as <- <-. split; [|exists [Acquire RCache; Acquire RSession; Acquire RHandlers; Acquire RMount]; reflexivity]. intros b' Hin. cbn in Hin. in_cons. inversion Hin.
  - exfalso. cbn in E. injection E as <- E. do 4 (destruct tr1 as [|? tr1]; [cbn in E; discriminate E|]; cbn in E; injection E as <- E). destruct tr1; discriminate E.
Qed.
Print Assumptions C65_detach.
(** The option -S passes the parser, but no backend is made for it: undefined behaviour. *)
Theorem C65_sftp_refuted : forall o w, o_mount o = true -> parse_ok o = true -> (0 < o_ssh o)%nat -> an_cache w = true -> main o w = ([Acquire RCache], Crash).
Proof.
  intros o w Hm Hp Hs Hc. unfold main, execute. rewrite Hp, Hm, Hc. cbn [negb]. assert (chosen o = None) as ->; [|reflexivity]. unfold parse_ok in Hp. rewrite Hm in Hp. cbn [negb orb] in Hp. apply andb_prop in Hp as [Hp _]. apply Nat.eqb_eq in Hp. unfold given in Hp. unfold chosen.
  destruct (Nat.eqb_spec (o_disc o) 0), (Nat.eqb_spec (o_local o) 0), (Nat.eqb_spec (o_ssh o) 0); try lia. reflexivity.
Qed.
(** The exit status does not tell whether anything worked ... *)
Theorem C65_status : forall o w tr z, parse_ok o = true -> main o w = (tr, Done z) -> z = 0.
Proof. intros o w tr z Hp. unfold main. rewrite Hp. destruct (o_mount o); [destruct (execute o w) as [tr' [r| | |]]|]; cbn; intros E; injection E as _ E; congruence. Qed.
Theorem C65_nothing : forall o w, o_mount o = false -> main o w = ([], Done 0).
Proof. intros o w Hm. unfold main, parse_ok. rewrite Hm. reflexivity. Qed.
Definition sample_opts : options := Options true 0 1 0 0 1 [47; 115] (Some [47; 99]) (Some [47; 109]).
Theorem C65_status_refuted : exists o w tr, o_mount o = true /\ parse_ok o = true /\ main o w = (tr, Done 0) /\ Refused RMount ∈ tr /\ forall b, Serve b ∉ tr.
Proof.
  exists sample_opts, (Answers 106 true true 0 (-1) 0). eexists. split; [reflexivity|]. split; [reflexivity|]. split; [reflexivity|]. cbn. split; [set_solver|]. intros b Hin. in_cons. inversion Hin.
Qed.
(** ... and what execute() computes is the wrong way round: 1 if the loop ends without an error, 0 if with one. *)
Theorem C65_inverted : forall o w tr z, execute o w = (tr, Done z) -> (exists b, Serve b ∈ tr) -> (z = 1 <-> an_loop w = 0) /\ (z = 0 <-> an_loop w <> 0).
Proof.
  intros o w tr z E [b Hin]. unfold execute in E. destruct (an_cache w); cbn [negb] in E; [|discriminate E]. destruct (chosen o); [|discriminate E]. destruct (an_session w); cbn [negb] in E; [|discriminate E].
  destruct (an_handlers w =? 0); cbn [negb] in E; [|injection E as <- _; in_cons; inversion Hin]. destruct (an_mount w =? 0); cbn [negb] in E; [|injection E as <- _; in_cons; inversion Hin].
  injection E as _ <-. destruct (Z.eqb_spec (an_loop w) 0); split; split; intros; try assumption; try reflexivity; try contradiction; try discriminate.
Qed.
Example C65_sample : main sample_opts (Answers 106 true true 0 0 0) =
  ([Acquire RCache; Acquire RSession; Acquire RHandlers; Acquire RMount; Detach true; Serve (LocalDir [47; 115]); Release RMount; Release RHandlers; Release RSession; Release RCache], Done 0).
Proof. reflexivity. Qed.

(** ** C66: mounting without backend *)
(** main.cpp:74-77: a new in-memory file system, with set_connected(false); what the option
    -N serves with ([Disconnected]). *)
Definition is_disconnected (b : backend) : Prop :=
  exists lim ord m, mstep lim ord mem0 (MConnect false) = Done (MUnit, m) /\ speaks_for lim ord m b.
Lemma disconnected_answers b : is_disconnected b ->
  (forall i p, b_lstat b i p = Err ENOTCONN) /\ (forall p, b_readlink b p = Err ENOTCONN) /\ (forall p, b_opendir b p = Err ENOTCONN).
Proof.
  intros (lim & ord & m & E & H). cbn in E. injection E as <-.
  split; [|split].
  - intros i p. pose proof (sf_lstat _ _ _ _ H i p) as Hs. cbn in Hs. injection Hs as Hs. symmetry. exact Hs.
  - intros p. pose proof (sf_readlink _ _ _ _ H p) as Hs. cbn in Hs. injection Hs as Hs. symmetry. exact Hs.
  - intros p. pose proof (sf_opendir _ _ _ _ H p) as Hs. destruct (b_opendir b p) as [[l e]|e].
    + destruct Hs as (hd & m1 & m2 & Hs & _). cbn in Hs. discriminate Hs.
    + cbn in Hs. injection Hs as <-. reflexivity.
Qed.
(** the requests of a mount without backend *)
Definition without_backend (q : request) : Prop :=
  match q with
  | QLookup b _ _ | QReadlink b _ | QOpendir b _ => is_disconnected b
  | QRestart _ => False
  | _ => True
  end.
Lemma disconnected_step W s k q s' o : FInv W s k -> klegal k s q -> enough W s q -> without_backend q -> fstep s q = Done (s', o) -> s_db s' = s_db s.
Proof.
  intros HF Hl HW Hq E. unfold enough in HW. assert (H63 : 2 ^ 63 < 2 ^ 64) by lia. pose proof (fi_dr _ _ _ HF) as Hdr. pose proof (dr_inv _ _ _ Hdr) as Hi.
  assert (HW0 : 0 <= weight s q). { destruct q; cbn [weight]; try lia. destruct (path _ _) as [[?|?]| | |]; try lia. destruct (b_opendir _ _) as [[? ?]|]; lia. }
  destruct q as [b p n|x m|fs|x|b x|b x|x size off|x|id x|id size off|tag|root]; cbn [fstep klegal without_backend] in *.
  - destruct (disconnected_answers b Hq) as (A1 & A2 & A3). destruct Hl as [Hk Hb]. cbn [weight] in HW. destruct (h_lookup_total W s k b p n HF Hk ltac:(lia)) as (s2 & l & E2 & Hc). rewrite E2 in E. injection E as <- <-.
    destruct Hc as [Hw|comps st' e Hw El' Hcn|comps st' c t1 t2 Hw El' Ee Elk|comps c a t2 Hw El' Hlk Hg Elk|comps Hw El' Hlk Hs|comps Hw El' Hlk Hs|comps e Hw El' Hlk He|comps e x t1 Hw El' He Eu]; try reflexivity; rewrite A1 in El'; try discriminate El'.
    + destruct (lock_refcount (begun s) c t2 W Hdr ltac:(lia) Elk) as [Ed _]. cbn [s_db after set_dbr]. exact Ed.
    + injection El' as <-. contradiction.
  - destruct (h_forget_spec W s k x m HF ltac:(lia) Hl) as (t & E2 & _ & Hd & _). rewrite E2 in E. injection E as <- <-. exact Hd.
  - destruct Hl as [Hl1 Hl2]. destruct (h_forget_multi_spec W s k fs HF ltac:(lia) Hl1 Hl2) as (t & E2 & _ & Hd & _). rewrite E2 in E. injection E as <- <-. exact Hd.
  - unfold h_getattr in E. destruct (getattr (s_db s) x); injection E as <- <-; reflexivity.
  - destruct (disconnected_answers b Hq) as (A1 & A2 & A3). destruct (h_readlink_total W s k b x HF) as (s2 & l & E2 & Hc). rewrite E2 in E. injection E as <- <-. destruct Hc as [Hw|comps link r t1 Hw El E1|comps link Hw El Hr|comps e Hw El Hr|comps e r t1 Hw El He E1]; try reflexivity; rewrite A2 in El; try discriminate El. injection El as <-. contradiction.
  - destruct (disconnected_answers b Hq) as (A1 & A2 & A3). destruct Hl as [Hk Hb]. destruct (h_opendir_total W s k b x HF Hk ltac:(lia)) as (s2 & l & E2 & Hc & _). rewrite E2 in E. injection E as <- <-.
    destruct Hc as [Hw|comps e Hw El He|comps Hw El|comps names e0 t1 t2 m t3 r t4 Hw El E1 _ E2' HS2 Hm Hm' E3 E4]; try reflexivity. rewrite A3 in El. discriminate El.
  - destruct (h_readdir_total s x size off Hi) as (l & E2 & _). rewrite E2 in E. injection E as <- <-. reflexivity.
  - injection E as <- <-. reflexivity.
  - injection E as <- <-. reflexivity.
  - destruct (s_plus s !! id) as [[snap dir]|] eqn:Hid; [|contradiction]. destruct (h_plus_total W s k id size off snap dir HF Hid ltac:(lia)) as (l & e & pre & post & rep & _ & _ & E2 & _). rewrite E2 in E. injection E as <- <-. reflexivity.
  - injection E as <- <-. reflexivity.
  - contradiction.
Qed.
(** While it is mounted without backend, nothing of the stored cache changes: every table is the
    same before and after each request (only the reference counts in memory move). *)
Lemma goes_unchanged W0 s0 k0 hs W s k : goes W0 s0 k0 hs W s k -> forall h, hist W0 s0 k0 h ->
  Forall (fun e => without_backend (ev_q e)) hs -> s_db s = s_db s0 /\ Forall (fun e => s_db (ev_s e) = s_db s0) hs.
Proof.
  induction 1 as [W s k|W s k q s' o sent es W2 s2 k2 Hl Hen E Es Hg IH]; intros h H0 HQ; [split; [reflexivity|constructor]|].
  inversion HQ as [|? ? Hq HQ']; subst. cbn [ev_q] in Hq. destruct (hist_inv _ _ _ _ H0) as (HF & HA & _). pose proof (disconnected_step W s k q s' o HF Hl Hen Hq E) as Ed.
  destruct (IH (h ++ [Ev s q sent])) as [I1 I2]; [econstructor; eassumption|assumption|]. rewrite Ed in I1, I2. split; [exact I1|]. constructor; [reflexivity|exact I2].
Qed.
Theorem C66_unchanged : forall W s k h hs, hist W s k (h ++ hs) -> Forall (fun e => without_backend (ev_q e)) hs ->
  Forall (fun e => s_db (ev_s e) = s_db s) hs.
Proof.
  intros W s k h hs H HQ. destruct (hist_split h hs _ _ _ H) as (W0 & s0 & k0 & H0 & Hg). destruct (goes_unchanged _ _ _ _ _ _ _ Hg _ H0 HQ) as [-> HF]. exact HF.
Qed.
Print Assumptions C66_unchanged.
(** Every request is answered from the cache: lookup with what is stored under the name; if
    nothing is, with ENOENT if the directory is known completely, else with EIO. *)
Theorem C66_lookup : forall W s k h b p n, hist W s k h -> klegal k s (QLookup b p n) -> enough W s (QLookup b p n) -> is_disconnected b ->
  asked s p <> None -> good_name n ->
  exists s' r, handles s (QLookup b p n) [r] s' /\ s_db s' = s_db s /\
    ((exists c a, lookup (s_db s) p n = Ok c /\ getattr (s_db s) c = Ok a /\ r = REntry c a) \/
     lookup (s_db s) p n = Err ENOENT /\ test_flag (s_db s) p SYNCED = Ok true /\ r = RErr ENOENT \/
     lookup (s_db s) p n = Err ENOENT /\ test_flag (s_db s) p SYNCED <> Ok true /\ r = RErr EIO).
Proof.
  intros W s k h b p n H Hl Hen Hd Hask Hv. destruct (asked s p) as [pp|] eqn:Ha; [|contradiction]. destruct (disconnected_answers b Hd) as (A1 & _).
  destruct (C35_offline W s k h b p n pp H Hl Hen Ha (A1 _ _) Hv) as (s' & r & Hh & Hdb & Hr). exists s', r. split; [exact Hh|]. split; [exact Hdb|].
  destruct (hist_inv _ _ _ _ H) as (HF & _). pose proof (dr_inv _ _ _ (fi_dr _ _ _ HF)) as Hi. pose proof (kdir_is_dir _ _ _ _ HF (proj1 Hl)) as Hdir. assert (Hup : u64 p) by (destruct Hdir as (i & Hix & _); apply (inode_range _ _ _ Hi Hix)).
  pose proof (proj1 (good_name_iff n) Hv) as Hv'.
  assert (Hbel : forall a, (exists c, kn (s_db s) p n c a) <-> belief h p n = Some a) by (destruct (belief_kn _ _ _ _ p n H Hv' Hup) as [Hlost|Hbel]; [destruct (asked_not_lost _ _ _ Hi Ha Hlost)|exact Hbel]).
  destruct (belief h p n) as [a|] eqn:Eb.
  - left. destruct Hr as (c & -> & Hc). exists c, a. split; [exact Hc|]. split; [|reflexivity]. destruct (proj2 (Hbel a) eq_refl) as [c' Hkn]. apply knows_kn in Hkn as [K1 K2]; [|assumption..]. congruence.
  - right. assert (Hno : lookup (s_db s) p n = Err ENOENT).
    { destruct (lookup (s_db s) p n) as [c|e] eqn:El.
      - exfalso. pose proof El as Hlk. apply lookup_Ok in Hlk as (_ & en & Hen' & Hc); [|assumption..]. destruct (treen_child _ _ _ _ Hi Hen') as (_ & _ & ci & Hci & _). rewrite Hc in Hci.
        assert (Hx : None = Some (i_attr ci)); [|discriminate Hx]. apply Hbel. exists c. apply knows_kn; [assumption..|]. split; [exact El|]. unfold getattr. rewrite Hci. reflexivity.
      - f_equal. unfold lookup in El. assert (Hcf : check_name n false = Ok tt). { unfold valid_name, check_name in *. destruct (MAX_NAME <? _); [discriminate|reflexivity]. } rewrite Hcf in El.
        destruct (Z.eqb_spec p INVALID_INO) as [->|]; [destruct Hdir as (i & Hix & _); destruct (inode_range _ _ _ Hi Hix); unfold INVALID_INO in *; lia|].
        clear - El. induction (from_key enc_in (d_treen (s_db s)) (le64 p)) as [|[[q m] f] rest IH]; cbn in El; [congruence|]. repeat (match type of El with context [if ?x then _ else _] => destruct x end); try discriminate; try congruence; auto. }
    rewrite Hno. destruct (test_flag (s_db s) p SYNCED) as [[]|] eqn:Ef; [left|right..]; (split; [reflexivity|]); (split; [first [reflexivity|discriminate]|exact Hr]).
Qed.
Print Assumptions C66_lookup.
(** readlink with the stored target; opendir succeeds without changing anything *)
Theorem C66_readlink : forall W s k h b x, hist W s k h -> klegal k s (QReadlink b x) -> is_disconnected b -> asked s x <> None ->
  handles s (QReadlink b x) [match readlink (s_db s) x with Ok l => RReadlink (cstr l) | Err e => RErr e end] s.
Proof.
  intros W s k h b x H Hl Hd Hask. destruct (asked s x) as [pp|] eqn:Ha; [|contradiction]. destruct (disconnected_answers b Hd) as (_ & A2 & _). destruct (hist_inv _ _ _ _ H) as (HF & _). pose proof (dr_inv _ _ _ (fi_dr _ _ _ HF)) as Hi.
  destruct (h_readlink_total W s k b x HF) as (s2 & l & E2 & Hc). apply handles_one. cbn [fstep]. rewrite E2.
  destruct Hc as [Hw|comps link r t1 Hw El E1|comps link Hw El Hr|comps e Hw El Hr|comps e r t1 Hw El He E1]; try (rewrite A2 in El; try discriminate El).
  - rewrite asked_none in Ha by assumption. discriminate Ha.
  - rewrite Hr. reflexivity.
  - rewrite Hr. reflexivity.
  - injection El as <-. contradiction.
Qed.
Theorem C66_opendir : forall W s k h b x, hist W s k h -> klegal k s (QOpendir b x) -> enough W s (QOpendir b x) -> is_disconnected b -> asked s x <> None ->
  handles s (QOpendir b x) [ROpen] s.
Proof.
  intros W s k h b x H Hl Hen Hd Hask. destruct (asked s x) as [pp|] eqn:Ha; [|contradiction]. destruct (disconnected_answers b Hd) as (_ & _ & A3). destruct (hist_inv _ _ _ _ H) as (HF & _). pose proof (dr_inv _ _ _ (fi_dr _ _ _ HF)) as Hi. destruct Hl as [Hk Hb]. unfold enough in Hen. assert (H63 : 2 ^ 63 < 2 ^ 64) by lia.
  destruct (h_opendir_total W s k b x HF Hk ltac:(lia)) as (s2 & l & E2 & Hc & _). apply handles_one. cbn [fstep]. rewrite E2.
  destruct Hc as [Hw|comps e Hw El He|comps Hw El|comps names e0 t1 t2 m t3 r t4 Hw El E1 _ E2' HS2 Hm Hm' E3 E4]; try (rewrite A3 in El; try discriminate El).
  - rewrite asked_none in Ha by assumption. discriminate Ha.
  - injection El as <-. contradiction.
  - reflexivity.
Qed.
Print Assumptions C66_opendir.
(** connected first, then started again with -N: a lookup, a listing *)
Definition nobackend : backend := mem_backend 1000 (fun m => (map_to_list m).*1) (Mem (m_nodes mem0) 1 false ∅ ∅ 0).
Lemma nobackend_is : is_disconnected nobackend.
Proof.
  exists 1000, (fun m => (map_to_list m).*1), (Mem (m_nodes mem0) 1 false ∅ ∅ 0). split; [reflexivity|].
  apply (C49_backend_exists 1000 _ _ [Mev mem0 (MConnect false) MUnit]); [lia|]. apply (mh_step _ _ mem0 [] (MConnect false)); [constructor|exact I|reflexivity].
Qed.
Lemma nobackend_ok : backend_ok nobackend.
Proof. destruct (disconnected_answers _ nobackend_is) as (A1 & A2 & _). split; [intros i p st E; rewrite A1 in E; discriminate E|intros p l E; rewrite A2 in E; discriminate E]. Qed.
Definition qs_before : list request := [QLookup online 1 nD; QOpendir online 2; QLookup online 1 nL; QReadlink online 5; QRestart rootA].
Definition qs_without : list request := [QLookup nobackend 1 nD; QOpendir nobackend 2; QLookup nobackend 2 nF; QLookup nobackend 2 nL; QReaddir 2 1000 0].
Definition qs66 : list request := qs_before ++ qs_without.
Example C66_sample : hist (sW qs66) (sS qs66) (sK qs66) (sH qs66) /\ Forall without_backend qs_without /\ map ev_q (drop 5 (sH qs66)) = qs_without /\
  map (fun e => match ev_sent e with [RBuf b] => [RBuf []] | l => l end) (drop 5 (sH qs66)) = [[REntry 2 dirA]; [ROpen]; [REntry 3 (fileA 20)]; [RErr ENOENT]; [RBuf []]] /\
  klegal (sK qs66) (sS qs66) (QLookup nobackend 2 nG) /\ enough (sW qs66) (sS qs66) (QLookup nobackend 2 nG) /\ asked (sS qs66) 2 = Some pD.
Proof.
  split. { apply sess_hist. unfold qs66, qs_before, qs_without. cbn [app]. repeat (apply Forall_cons; split; [first [exact online_ok|exact nobackend_ok|exact I]|]). apply Forall_nil. exact I. }
  split. { unfold qs_without. repeat (apply Forall_cons; split; [first [exact nobackend_is|exact I]|]). apply Forall_nil. exact I. }
  split; [vm_compute; reflexivity|]. split; [vm_compute; reflexivity|]. split; [apply klegalb_ok; [exact nobackend_ok|vm_compute; reflexivity]|]. split; vm_compute; reflexivity.
Qed.
