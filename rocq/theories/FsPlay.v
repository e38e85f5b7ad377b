(** Concrete histories for the samples: a runner that checks legality, and finite backends. *)
From Verif Require Export FsHist.

Definition rootA : attrs := Attrs 0 0 1000 1000 (0, 0) (0, 0) (0, 0) 0.
Lemma rootA_ok : attrs_ok rootA.
Proof. repeat split; try (vm_compute; reflexivity); vm_compute; discriminate. Qed.
Definition kdirb (k : kst) (x : Z) : bool := (x =? ROOT_INO) || (bool_decide (x ∈ k_dirs k) && (0 <? kcount k x)).
Definition keys_of (l : list (Z * Z)) : list Z := map fst l.
Definition klegalb (k : kst) (s : fstate) (q : request) : bool :=
  match q with
  | QLookup _ p _ => kdirb k p
  | QOpendir _ x => kdirb k x
  | QForget x n => (0 <=? n) && (n <=? kcount k x)
  | QForgetMulti l => false
  | QPlusRun id _ _ => match s_plus s !! id with Some _ => true | None => false end
  | QRestart root => bool_decide (root = rootA)
  | _ => true
  end.
Definition backend_of (q : request) : option backend :=
  match q with QLookup b _ _ | QReadlink b _ | QOpendir b _ => Some b | _ => None end.
Definition q_ok (q : request) : Prop := match backend_of q with Some b => backend_ok b | None => True end.
Lemma kdirb_ok k x : kdirb k x = true -> kdir k x.
Proof. unfold kdirb, kdir. rewrite orb_true_iff, andb_true_iff, bool_decide_eq_true, Z.eqb_eq, Z.ltb_lt. tauto. Qed.
Lemma klegalb_ok k s q : q_ok q -> klegalb k s q = true -> klegal k s q.
Proof.
  unfold q_ok. destruct q; cbn [klegalb klegal backend_of]; intros Hb H; auto using kdirb_ok.
  - rewrite andb_true_iff, !Z.leb_le in H. assumption.
  - discriminate.
  - destruct (s_plus s !! id); discriminate.
  - apply bool_decide_eq_true in H. subst. exact rootA_ok.
Qed.
Fixpoint play (W : Z) (s : fstate) (k : kst) (h : list event) (qs : list request) : option (Z * fstate * kst * list event) :=
  match qs with
  | [] => Some (W, s, k, h)
  | q :: qs =>
    if klegalb k s q && (W + weight s q + 3 <? 2 ^ 63) then
      match fstep s q with
      | Done (s', o) =>
        match sent_of o with
        | (sent, false) => play (W + weight s q) s' (kstep k q sent) (h ++ [Ev s q sent]) qs
        | _ => None
        end
      | _ => None
      end
    else None
  end.
Lemma play_hist qs : forall W s k h W' s' k' h', hist W s k h -> Forall q_ok qs -> play W s k h qs = Some (W', s', k', h') -> hist W' s' k' h'.
Proof.
  induction qs as [|q qs IH]; intros W s k h W' s' k' h' H Hq E; cbn [play] in E; [injection E as <- <- <- <-; exact H|].
  destruct (klegalb k s q && _) eqn:Hl; [|discriminate]. apply andb_true_iff in Hl as [Hl Hw]. apply Z.ltb_lt in Hw. inversion Hq as [|? ? Hq1 Hq2]; subst.
  destruct (fstep s q) as [[s1 o]| | |] eqn:Ef; try discriminate. destruct (sent_of o) as [sent []] eqn:Eo; [discriminate|]. eapply IH; [|exact Hq2|exact E]. econstructor; try eassumption. apply klegalb_ok; assumption.
Qed.
(** the start: an empty cache *)
Definition s_start : fstate := match open_cache rootA db_empty with Done (d, r) => Fst d r ∅ | _ => Fst db_empty ∅ ∅ end.
Lemma hist_start : hist 0 s_start k0 [].
Proof. unfold s_start. destruct (open_cache rootA db_empty) as [[d r]| | |] eqn:E; try (vm_compute in E; discriminate). econstructor; [exact rootA_ok|exact E]. Qed.
Definition session_of (qs : list request) := play 0 s_start k0 [] qs.
Lemma session_hist qs W s k h : Forall q_ok qs -> session_of qs = Some (W, s, k, h) -> hist W s k h.
Proof. apply play_hist, hist_start. Qed.

(** backends that know finitely many paths; [e] is the answer for all others *)
Fixpoint assoc {A} (l : list (bytes * A)) (p : bytes) (e : Z) : res A :=
  match l with
  | [] => Err e
  | (q, a) :: l => if decide (q = p) then Ok a else assoc l p e
  end.
Definition finite (stats : list (bytes * attrs)) (links : list (bytes * bytes)) (dirs : list (bytes * (list bytes * Z))) : backend :=
  Backend (fun _ p => assoc stats p ENOENT) (fun p => assoc links p ENOENT) (fun p => assoc dirs p ENOENT).
Definition offline : backend := Backend (fun _ _ => Err ENOTCONN) (fun _ => Err ENOTCONN) (fun _ => Err ENOTCONN).
Lemma assoc_in {A} (l : list (bytes * A)) p e a : assoc l p e = Ok a -> a ∈ l.*2.
Proof. induction l as [|[q b] l IH]; cbn; [discriminate|]. destruct (decide (q = p)); [intros E; injection E as ->; left|intros E; right; auto]. Qed.
Lemma finite_ok stats links dirs : Forall attrs_ok (stats.*2) -> Forall (fun l => Z.of_nat (length l) < 2 ^ 64) (links.*2) -> backend_ok (finite stats links dirs).
Proof.
  intros H1 H2. split; cbn.
  - intros _ p st E. apply assoc_in in E. rewrite Forall_forall in H1. auto.
  - intros p l E. apply assoc_in in E. rewrite Forall_forall in H2. auto.
Qed.
Lemma offline_ok : backend_ok offline.
Proof. split; cbn; discriminate. Qed.
Definition fileA (size : Z) : attrs := Attrs size 0 1000 1000 (5, 0) (6, 0) (7, 0) (S_IFREG + 420).
Definition dirA : attrs := Attrs 4096 0 1000 1000 (1, 0) (2, 0) (3, 0) (S_IFDIR + 493).
Definition linkA : attrs := Attrs 3 0 1000 1000 (1, 0) (2, 0) (3, 0) (S_IFLNK + 511).
(** "/", "d", "f", "g", "l" *)
Definition nD : bytes := [100]. Definition nF : bytes := [102]. Definition nG : bytes := [103]. Definition nL : bytes := [108].
Definition pD : bytes := [47; 100]. Definition pF : bytes := [47; 102]. Definition pG : bytes := [47; 103]. Definition pL : bytes := [47; 108].
Definition pDF : bytes := [47; 100; 47; 102]. Definition pDG : bytes := [47; 100; 47; 103].
Definition online : backend :=
  finite [(pD, dirA); (pF, fileA 10); (pL, linkA); (pDF, fileA 20); (pDG, fileA 30)] [(pL, pF)] [([47], ([nD; nF; nL], 0)); (pD, ([nF; nG], 0))].
(** later: /f is gone, /d/f has grown, and the listing of /d stops with an error after f *)
Definition changed : backend :=
  finite [(pD, dirA); (pL, linkA); (pDF, fileA 21); (pDG, fileA 30)] [] [([47], ([nD; nL], 0)); (pD, ([nF], EIO))].
Lemma fileA_ok n : u64 n -> attrs_ok (fileA n).
Proof. intros H. split; [exact H|]. repeat split; try (vm_compute; reflexivity); vm_compute; discriminate. Qed.
Lemma dirA_ok : attrs_ok dirA.
Proof. repeat split; try (vm_compute; reflexivity); vm_compute; discriminate. Qed.
Lemma linkA_ok : attrs_ok linkA.
Proof. repeat split; try (vm_compute; reflexivity); vm_compute; discriminate. Qed.
Ltac finite_oks := apply finite_ok; cbn; repeat first [apply Forall_cons; split|apply Forall_nil]; try exact I; first [exact dirA_ok|exact linkA_ok|apply fileA_ok; unfold u64; lia|cbn; lia].
Lemma online_ok : backend_ok online.
Proof. finite_oks. Qed.
Lemma changed_ok : backend_ok changed.
Proof. finite_oks. Qed.
Ltac qs_ok := repeat (apply Forall_cons; split; [first [exact online_ok|exact changed_ok|exact offline_ok|exact I]|]); apply Forall_nil; exact I.
(** the replies of a session *)
Definition replies (qs : list request) : option (list (list reply)) := (fun x => map ev_sent (snd x)) <$> session_of qs.
(** the session as a value (the start if it is not legal): words, state, kernel, history *)
Definition sess (qs : list request) : Z * fstate * kst * list event := match session_of qs with Some x => x | None => (0, s_start, k0, []) end.
Definition sW qs : Z := fst (fst (fst (sess qs))).
Definition sS qs : fstate := snd (fst (fst (sess qs))).
Definition sK qs : kst := snd (fst (sess qs)).
Definition sH qs : list event := snd (sess qs).
Lemma sess_hist qs : Forall q_ok qs -> hist (sW qs) (sS qs) (sK qs) (sH qs).
Proof.
  intros Hq. unfold sW, sS, sK, sH, sess. destruct (session_of qs) as [[[[W s] k] h]|] eqn:E; cbn [fst snd]; [exact (session_hist _ _ _ _ _ Hq E)|exact hist_start].
Qed.
(** the state after a request, and what it sends *)
Definition next (s : fstate) (q : request) : fstate := match fstep s q with Done (s', _) => s' | _ => s end.
Definition out (s : fstate) (q : request) : option (list reply * bool) := match fstep s q with Done (_, o) => Some (sent_of o) | _ => None end.
Lemma out_ok s q x : out s q = Some x -> exists o, fstep s q = Done (next s q, o) /\ sent_of o = x.
Proof. unfold out, next. destruct (fstep s q) as [[s' o]| | |]; intros E; try discriminate. injection E as <-. eauto. Qed.
