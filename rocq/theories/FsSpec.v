(** What the kernel knows and is allowed to ask, and histories of requests. *)
From Verif Require Export Fs PropsFuse.

(** ** The kernel's side *)
(** Lookup counts and the inodes that were announced as directories, computed from the
    requests and the replies alone. *)
Record kst := K { k_cnt : gmap Z Z; k_dirs : gset Z }.
Definition k0 : kst := K ∅ ∅.
Definition kcount (k : kst) (x : Z) : Z := default 0 (k_cnt k !! x).
Definition told (x mode : Z) (k : kst) : kst :=
  K (<[x := kcount k x + 1]> (k_cnt k)) (if ftype mode =? S_IFDIR then {[x]} ∪ k_dirs k else k_dirs k).
Definition forgot (x n : Z) (k : kst) : kst := K (<[x := kcount k x - n]> (k_cnt k)) (k_dirs k).
(** every entry of a readdirplus reply but "." and ".." counts as a lookup *)
Definition told_plus (e : kplus) (k : kst) : kst :=
  if decide (ke_name (kp_ent e) = DOT \/ ke_name (kp_ent e) = DOTDOT) then k
  else told (kp_node e) (kp_mode e) k.
Definition kstep (k : kst) (q : request) (sent : list reply) : kst :=
  match q, sent with
  | QLookup _ _ _, [REntry c a] => told c (a_mode a) k
  | QPlusRun _ _ _, [RBuf b] => foldr told_plus k (kernel_reads_plus b)
  | QForget x n, _ => forgot x n k
  | QForgetMulti l, _ => foldr (fun f k => forgot f.1 f.2 k) k l
  | QRestart _, _ => k0
  | _, _ => k
  end.
(** [x] is the root or a directory the kernel holds *)
Definition kdir (k : kst) (x : Z) : Prop := x = ROOT_INO \/ x ∈ k_dirs k /\ 0 < kcount k x.
Definition forget_total (x : Z) (l : list (Z * Z)) : Z := foldr (fun f s => (if f.1 =? x then f.2 else 0) + s) 0 l.
(** the answers of a backend are in the ranges of their machine types *)
Definition backend_ok (b : backend) : Prop :=
  (forall i p st, b_lstat b i p = Ok st -> attrs_ok st) /\ (forall p l, b_readlink b p = Ok l -> Z.of_nat (length l) < 2 ^ 64).
(** Names are looked up and directories opened only in directories the kernel holds; it never
    forgets more than it was told. *)
Definition klegal (k : kst) (s : fstate) (q : request) : Prop :=
  match q with
  | QLookup b p _ => kdir k p /\ backend_ok b
  | QReadlink b _ => backend_ok b
  | QOpendir b x => kdir k x /\ backend_ok b
  | QForget x n => 0 <= n <= kcount k x
  | QForgetMulti l => Forall (fun f => 0 <= f.2) l /\ forall x, forget_total x l <= kcount k x
  | QPlusRun id _ _ => s_plus s !! id <> None
  | QRestart root => attrs_ok root
  | _ => True
  end.

(** How many inode numbers and references a request can use up at most. *)
Definition weight (s : fstate) (q : request) : Z :=
  match q with
  | QLookup _ _ _ => 2
  | QOpendir b x =>
    match path (s_db s) x with
    | Done (Ok pp) => match b_opendir b (backend_path pp) with Ok (names, _) => Z.of_nat (length names) | Err _ => 0 end
    | _ => 0
    end
  | QPlusRun _ size _ => Z.max 0 size + 1
  | _ => 0
  end.

(** ** Histories, from the first mount of an empty cache: every request with the state it was
    made in and what was sent.  [W] adds up the weights: it has to stay so small that counters
    do not wrap and inode numbers fit into a directory offset (off_t). *)
Record event := Ev { ev_s : fstate; ev_q : request; ev_sent : list reply }.
Definition sent_of (o : option (list reply)) : list reply * bool :=
  match o with None => ([], false) | Some l => answer l end.
Definition enough (W : Z) (s : fstate) (q : request) : Prop := W + weight s q + 3 < 2 ^ 63.
Inductive hist : Z -> fstate -> kst -> list event -> Prop :=
| hist_open root d r : attrs_ok root -> open_cache root db_empty = Done (d, r) -> hist 0 (Fst d r ∅) k0 []
| hist_step W s k h q s' o sent : hist W s k h -> klegal k s q -> enough W s q ->
    fstep s q = Done (s', o) -> sent_of o = (sent, false) ->
    hist (W + weight s q) s' (kstep k q sent) (h ++ [Ev s q sent]).
