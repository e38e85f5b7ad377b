(** What a request teaches about one name of one directory, and what is believed after a
    history: defined by the requests, the paths asked for and the backend's answers. *)
From Verif Require Export FsKnow.

(** the path under which the backend is asked about [x]; None: [x] has been removed *)
Definition asked (s : fstate) (x : Z) : option bytes :=
  match path (s_db s) x with Done (Ok pp) => Some pp | _ => None end.
Inductive report := Silent | Gone | Now (a : attrs).
(** the attributes of [n] in a listing: the last lstat of that name that succeeded *)
Definition listed (b : backend) (bp : bytes) (names : list bytes) (n : bytes) (a : attrs) : Prop :=
  exists i st, names !! i = Some n /\ b_lstat b i (join_path bp n) = Ok st /\ a = from_backend_stat st /\
    forall j, (i < j)%nat -> names !! j = Some n -> exists e, b_lstat b j (join_path bp n) = Err e.
(** A connected backend answers with something else than ENOTCONN.
    - lookup asks about one name;
    - opendir asks for all names of a directory, and for the attributes of each;
    - readlink asks about the inode that is the entry [n] of [p]: it learns the link's length,
      or that the entry is not there any more. *)
Definition news (s : fstate) (q : request) (p : Z) (n : bytes) : report :=
  match q with
  | QLookup b p' n' =>
    if decide (p' = p /\ n' = n) then
      match asked s p with
      | None => Silent
      | Some pp =>
        match b_lstat b 0 (pp ++ [47] ++ n) with
        | Ok st => Now (from_backend_stat st)
        | Err e => if e =? ENOTCONN then Silent else Gone
        end
      end
    else Silent
  | QOpendir b p' =>
    if p' =? p then
      match asked s p with
      | None => Silent
      | Some pp =>
        match b_opendir b (backend_path pp) with
        | Err _ => Silent
        | Ok (names, _) => match last_stat b (backend_path pp) 0 names n None with Some a => Now a | None => Gone end
        end
      end
    else Silent
  | QReadlink b c =>
    match lookup (s_db s) p n with
    | Err _ => Silent
    | Ok c' =>
      if c' =? c then
        match asked s c with
        | None => Silent
        | Some pp =>
          match b_readlink b (backend_path pp) with
          | Ok link =>
            match getattr (s_db s) c with
            | Ok a => if ftype (a_mode a) =? S_IFLNK then Now (set_size (Z.of_nat (length link)) a) else Silent
            | Err _ => Silent
            end
          | Err e => if e =? ENOTCONN then Silent else Gone
          end
        end
      else Silent
    end
  | _ => Silent
  end.
Definition learn (old : option attrs) (r : report) : option attrs :=
  match r with Silent => old | Gone => None | Now a => Some a end.
(** the last news about [n] in [p], if the entry was there then *)
Fixpoint belief_from (old : option attrs) (h : list event) (p : Z) (n : bytes) : option attrs :=
  match h with
  | [] => old
  | e :: h => belief_from (learn old (news (ev_s e) (ev_q e) p n)) h p n
  end.
Definition belief (h : list event) (p : Z) (n : bytes) : option attrs := belief_from None h p n.
(** a connected backend listed the directory [x] in this request *)
Definition lists (s : fstate) (q : request) (x : Z) : Prop :=
  exists b pp l, q = QOpendir b x /\ asked s x = Some pp /\ b_opendir b (backend_path pp) = Ok l.

Lemma last_stat_listed b bp names n : forall i acc a, last_stat b bp i names n acc = Some a <->
  (exists j st, names !! j = Some n /\ b_lstat b (i + j) (join_path bp n) = Ok st /\ a = from_backend_stat st /\
     forall j', (j < j')%nat -> names !! j' = Some n -> exists e, b_lstat b (i + j') (join_path bp n) = Err e) \/
  acc = Some a /\ forall j, names !! j = Some n -> exists e, b_lstat b (i + j) (join_path bp n) = Err e.
Proof.
  induction names as [|m names IH]; intros i acc a; cbn [last_stat].
  - split; [intros ->; right; split; [reflexivity|]; intros j Hj; rewrite lookup_nil in Hj; discriminate|]. intros [(j & st & Hj & _)|[-> _]]; [rewrite lookup_nil in Hj; discriminate|reflexivity].
  - rewrite IH. clear IH. split.
    + intros [(j & st & Hj & Hl & Ha & Hn)|[Hacc Hn]].
      * left. exists (S j), st. cbn. rewrite Nat.add_succ_r. split; [exact Hj|]. split; [exact Hl|]. split; [exact Ha|]. intros [|j'] Hlt Hj'; [lia|]. cbn in Hj'. rewrite Nat.add_succ_r. apply (Hn j'); [lia|exact Hj'].
      * assert (Hrest : forall j', (0 < j')%nat -> (m :: names) !! j' = Some n -> exists e, b_lstat b (i + j') (join_path bp n) = Err e).
        { intros [|j'] Hlt Hj'; [lia|]. cbn in Hj'. rewrite Nat.add_succ_r. apply (Hn j'). exact Hj'. }
        destruct (decide (m = n)) as [->|Hne].
        -- destruct (b_lstat b i (join_path bp n)) as [st|e] eqn:El.
           ++ injection Hacc as <-. left. exists 0%nat, st. rewrite Nat.add_0_r. split; [reflexivity|]. split; [exact El|]. split; [reflexivity|exact Hrest].
           ++ right. split; [exact Hacc|]. intros [|j] Hj; [rewrite Nat.add_0_r; eauto|apply Hrest; [lia|exact Hj]].
        -- right. split; [exact Hacc|]. intros [|j] Hj; [cbn in Hj; congruence|apply Hrest; [lia|exact Hj]].
    + intros [(j & st & Hj & Hl & Ha & Hn)|[Hacc Hn]].
      * destruct j as [|j].
        -- cbn in Hj. injection Hj as ->. rewrite Nat.add_0_r in Hl. right. rewrite decide_True by reflexivity. rewrite Hl. split; [congruence|]. intros j' Hj'. specialize (Hn (S j') ltac:(lia) Hj'). rewrite Nat.add_succ_r in Hn. exact Hn.
        -- left. exists j, st. cbn in Hj. rewrite Nat.add_succ_r in Hl. split; [exact Hj|]. split; [exact Hl|]. split; [exact Ha|]. intros j' Hlt Hj'. specialize (Hn (S j') ltac:(lia) Hj'). rewrite Nat.add_succ_r in Hn. exact Hn.
      * right. split.
        -- destruct (decide (m = n)) as [->|Hne]; [|exact Hacc]. destruct (Hn 0%nat eq_refl) as [e He]. rewrite Nat.add_0_r in He. rewrite He. exact Hacc.
        -- intros j Hj. specialize (Hn (S j) Hj). rewrite Nat.add_succ_r in Hn. exact Hn.
Qed.
Lemma listed_iff b bp names n a : last_stat b bp 0 names n None = Some a <-> listed b bp names n a.
Proof. rewrite last_stat_listed. unfold listed. split; [intros [?|[? _]]; [assumption|discriminate]|auto]. Qed.
