(** What readdir and readdirplus put into their buffers. *)
From Verif Require Export FsDir FsAttrs.

(** the record an entry of a scan becomes: the inode number is also the offset *)
Definition to_bent (e : dent) : bent := let '(x, n, a) := e in BEnt n x a x.
Lemma readdir_name d dir cur x n : Inv d -> readdir d dir cur = Ok (x, n) -> n = DOT \/ n = DOTDOT \/ valid_name n.
Proof.
  intros H E. unfold readdir in E. destruct (cur =? 0); [injection E as <- <-; auto|].
  destruct (parent_of d dir) as [par|]; [|discriminate]. destruct (negb (cur =? par) && (cur =? dir)); [injection E as <- <-; auto|].
  assert (Hin : forall k e b, (k, e) ∈ from_key enc_ii (d_treei d) b -> valid_name (de_name e)).
  { intros [p c] e b Hin. apply elem_of_from in Hin as [Hin _]. destruct (inv_treei _ H _ _ _ Hin) as (_ & _ & _ & _ & _ & Hn). apply (inv_treen _ H _ _ _ Hn). }
  cbv zeta in E. set (b := enc_ii _) in E. specialize (Hin). destruct (from_key enc_ii (d_treei d) b) as [|[[q c] e] l] eqn:El; [discriminate|].
  destruct (negb (q =? dir)); [discriminate|]. destruct (c =? cur).
  - destruct l as [|[[q' c'] e'] l]; [discriminate|]. destruct (negb (q' =? dir)); [discriminate|]. injection E as <- <-. right. right. apply (Hin (q', c') e' b). rewrite El. right. left.
  - injection E as <- <-. right. right. apply (Hin (q, c) e b). rewrite El. left.
Qed.
Lemma valid_name_bytes n : valid_name n -> ~ In 0 n /\ Z.of_nat (length n) <= 503.
Proof.
  intros H. split; [|apply valid_name_len, H]. unfold valid_name, check_name in H. destruct (_ <? _); [discriminate|]. cbn [negb] in H. destruct (existsb _ n) eqn:E; [discriminate|].
  intros Hin. rewrite <- not_true_iff_false in E. apply E. apply existsb_exists. exists 0. split; [assumption|reflexivity].
Qed.
Definition small (d : db) : Prop := exists n, d_next d = Some n /\ n <= 2 ^ 63.
Lemma scan_bents d dir cur l e : Inv d -> DA d -> small d -> scan d dir cur l e -> Forall bent_ok (map to_bent l).
Proof.
  intros H HA (nx & Hnx & Hs). induction 1 as [| |cur x n a l e Hr Hg _ IH]; [constructor..|]. cbn [map to_bent]. constructor; [|exact IH].
  assert (Hn : ~ In 0 n /\ Z.of_nat (length n) <= 503).
  { destruct (readdir_name _ _ _ _ _ H Hr) as [->|[->|Hv]]; [split; [cbn; lia|cbn; lia]..|apply valid_name_bytes, Hv]. }
  apply getattr_Ok in Hg as (i & Hi & <-). destruct (inv_next _ H) as (n' & Hn' & _ & Hlt). specialize (Hlt _ _ Hi). assert (n' = nx) by congruence. subst n'.
  unfold bent_ok. cbn [be_name be_ino be_attr be_off]. unfold u64, s64. split; [tauto|]. split; [lia|]. split; [lia|]. split; [exact (HA _ _ Hi)|lia].
Qed.

(** ** how much of a list goes into a reply of at most [size] bytes: the longest prefix whose
    size stays strictly below [size] *)
Definition fits (f : bytes -> Z) (size : Z) (l pre post : list bent) : Prop :=
  l = pre ++ post /\
  (0 < size -> total_size f pre < size /\ match post with [] => True | y :: _ => size <= total_size f (pre ++ [y]) end) /\
  (size <= 0 -> pre = []).
Lemma total_app f l1 l2 : total_size f (l1 ++ l2) = total_size f l1 + total_size f l2.
Proof. unfold total_size. induction l1 as [|e l1 IH]; [reflexivity|]. cbn [app fold_right]. rewrite IH. lia. Qed.

(** one round of the loop, without the database *)
Fixpoint fill (rec : bent -> bytes) (size : Z) (buf : bytes) (ts : nat) (l : list bent) (e : Z) : Z * bool * bytes * nat :=
  if Z.of_nat (length buf) <? size then
    match l with
    | [] => (e, e =? 0, buf, length buf)
    | x :: l => fill rec size (buf ++ rec x) (length buf) l e
    end
  else (0, false, buf, ts).
Lemma readdir_loop_fill d dir size cur l e : scan d dir cur l e -> Inv d -> (e <> 0 \/ True) -> forall fuel buf ts, (length l < fuel)%nat ->
  readdir_loop fuel d dir size cur buf ts = Done (fill rec_dirent size buf ts (map to_bent l) e).
Proof.
  intros Hs H _. induction Hs as [cur e Hr|cur x n e Hr Hg|cur x n a l e Hr Hg Hs IH]; intros fuel buf ts Hf; destruct fuel as [|fuel]; try (cbn [length] in Hf; lia);
    cbn [readdir_loop]; cbn [map fill to_bent]; destruct (Z.of_nat (length buf) <? size); try reflexivity; rewrite Hr; [reflexivity|..]; rewrite Hg.
  - apply getattr_Err in Hg as [_ ->]. reflexivity.
  - assert (Hn : ~ In 0 n). { destruct (readdir_name _ _ _ _ _ H Hr) as [->|[->|Hv]]; [cbn; lia..|apply valid_name_bytes, Hv]. }
    pose proof (dirbuf_add_spec buf (BEnt n x a x) Hn) as E. cbn [be_name be_ino be_attr be_off] in E. rewrite E. cbn [obind]. apply IH. cbn [length] in Hf. lia.
Qed.
Lemma fill_spec f (rec : bent -> bytes) size : (forall e, Z.of_nat (length (rec e)) = f (be_name e)) -> forall l buf ts e, (ts <= length buf)%nat ->
  exists err eof buf' ts' pre post, fill rec size buf ts l e = (err, eof, buf', ts') /\ l = pre ++ post /\
    ((size <= Z.of_nat (length buf) /\ pre = [] /\ err = 0 /\ eof = false /\ buf' = buf /\ ts' = ts) \/
     (Z.of_nat (length buf) < size /\ take ts' buf' = buf ++ concat (map rec pre) /\ Z.of_nat (length (buf ++ concat (map rec pre))) < size /\
      match post with
      | [] => err = e /\ eof = (e =? 0) /\ buf' = buf ++ concat (map rec pre)
      | y :: _ => size <= Z.of_nat (length (buf ++ concat (map rec pre) ++ rec y)) /\ err = 0 /\ eof = false
      end)).
Proof.
  intros Hf. induction l as [|x l IH]; intros buf ts e Hts; cbn [fill]; destruct (Z.ltb_spec (Z.of_nat (length buf)) size) as [Hlt|Hge].
  - eexists _, _, _, _, [], []. split; [reflexivity|]. split; [reflexivity|]. right. cbn [map concat]. rewrite app_nil_r. split; [lia|]. split; [apply take_ge; lia|]. split; [lia|]. auto.
  - eexists _, _, _, _, [], []. split; [reflexivity|]. split; [reflexivity|]. left. split_and!; auto; lia.
  - destruct (IH (buf ++ rec x) (length buf) e ltac:(rewrite app_length; lia)) as (err & eof & buf' & ts' & pre & post & E & El & [(Hsz & -> & -> & -> & -> & ->)|(Hlt' & Ht & Hsz & Hp)]).
    + eexists _, _, _, _, [], (x :: l). split; [exact E|]. split; [reflexivity|]. right. cbn [map concat]. rewrite app_nil_r. split; [lia|]. rewrite take_app. split; [reflexivity|]. split; [lia|]. split; [exact Hsz|auto].
    + eexists _, _, _, _, (x :: pre), post. split; [exact E|]. split; [rewrite El; reflexivity|]. right. cbn [map concat]. rewrite !app_assoc. split; [lia|]. split; [exact Ht|]. split; [exact Hsz|].
      destruct post; [exact Hp|]. rewrite <- !app_assoc in Hp |- *. exact Hp.
  - eexists _, _, _, _, [], (x :: l). split; [reflexivity|]. split; [reflexivity|]. left. split_and!; auto; lia.
Qed.
Lemma concat_total f (rec : bent -> bytes) pre : (forall e, Z.of_nat (length (rec e)) = f (be_name e)) -> Z.of_nat (length (concat (map rec pre))) = total_size f pre.
Proof. intros Hf. induction pre as [|x pre IH]; [reflexivity|]. cbn [map concat]. rewrite app_length, Nat2Z.inj_add, Hf, IH. reflexivity. Qed.
Lemma fill_start f (rec : bent -> bytes) size l e : (forall e, Z.of_nat (length (rec e)) = f (be_name e)) ->
  exists err eof buf' ts' pre post, fill rec size [] 0 l e = (err, eof, buf', ts') /\ fits f size l pre post /\
    take ts' buf' = concat (map rec pre) /\
    (0 < size -> match post with [] => err = e /\ eof = (e =? 0) /\ buf' = concat (map rec pre) | _ => err = 0 /\ eof = false end) /\
    (size <= 0 -> err = 0 /\ eof = false).
Proof.
  intros Hf. destruct (fill_spec f rec size Hf l [] 0 e ltac:(cbn; lia)) as (err & eof & buf' & ts' & pre & post & E & El & [(Hsz & -> & -> & -> & -> & ->)|(Hlt' & Ht & Hsz & Hp)]).
  - cbn [length Z.of_nat] in Hsz. eexists _, _, _, _, [], l. split; [exact E|]. split; [split; [reflexivity|]; split; [lia|auto]|]. split; [reflexivity|]. split; [lia|auto].
  - cbn [length Z.of_nat app] in *. eexists _, _, _, _, pre, post. split; [exact E|]. rewrite (concat_total f) in Hsz by assumption. split.
    + split; [exact El|]. split; [|lia]. intros _. split; [exact Hsz|]. destruct post as [|y post]; [exact I|]. destruct Hp as [Hp _]. rewrite app_length, Nat2Z.inj_add, (concat_total f), Hf in Hp by assumption.
      rewrite total_app. cbn. lia.
    + split; [exact Ht|]. split; [|lia]. intros _. destruct post; [exact Hp|tauto].
Qed.

(** ** readdir *)
Inductive readdir_case (s : fstate) (x size off : Z) : list reply -> Prop :=
| rd_part l e pre post : scan (s_db s) x (w64 off) l e -> fits dirent_size size (map to_bent l) pre post -> (0 < size -> post <> []) ->
    readdir_case s x size off [RBuf (concat (map rec_dirent pre))]
| rd_rest l pre : 0 < size -> scan (s_db s) x (w64 off) l 0 -> fits dirent_size size (map to_bent l) pre [] ->
    (pre = [] -> test_flag (s_db s) x SYNCED = Ok true) ->
    readdir_case s x size off [RBuf (concat (map rec_dirent pre))]
| rd_unknown : 0 < size -> scan (s_db s) x (w64 off) [] 0 -> test_flag (s_db s) x SYNCED <> Ok true -> readdir_case s x size off [RErr EIO]
| rd_error l e pre : 0 < size -> scan (s_db s) x (w64 off) l e -> fits dirent_size size (map to_bent l) pre [] -> e <> 0 ->
    (e = ENOENT \/ e = EIO) -> (l = [] /\ ~ has_inode (s_db s) x \/ is_orphan (s_db s) x) ->
    readdir_case s x size off [RErr e; RBuf (concat (map rec_dirent pre))].
Lemma map_nil_inv {A B} (f : A -> B) l : map f l = [] -> l = [].
Proof. destruct l; [reflexivity|discriminate]. Qed.
Lemma recs_nil (f : bytes -> Z) (rec : bent -> bytes) pre : (forall e, Z.of_nat (length (rec e)) = f (be_name e)) -> (forall n, 0 < f n) ->
  (length (concat (map rec pre)) =? 0)%nat = true <-> pre = [].
Proof.
  intros Hf Hp. destruct pre as [|y pre]; [split; reflexivity|]. split; [|discriminate]. cbn [map concat]. rewrite Nat.eqb_eq, app_length. specialize (Hf y). specialize (Hp (be_name y)). lia.
Qed.
Lemma dirent_size_pos n : 0 < dirent_size n.
Proof. unfold dirent_size. pose proof (align8_ge (24 + Z.of_nat (length n))). lia. Qed.
Lemma direntplus_size_pos n : 0 < direntplus_size n.
Proof. unfold direntplus_size. pose proof (align8_ge (152 + Z.of_nat (length n))). lia. Qed.
Lemma h_readdir_total s x size off : Inv (s_db s) -> exists l, h_readdir s x size off = Done (s, l) /\ readdir_case s x size off l.
Proof.
  intros H. destruct (scan_total (s_db s) x (w64 off) H) as (l & e & Hs & Hlen & He & Ho). unfold h_readdir.
  rewrite (readdir_loop_fill _ _ size _ _ _ Hs H (or_intror I)) by (unfold dir_fuel; lia).
  destruct (fill_start dirent_size rec_dirent size (map to_bent l) e rec_dirent_length) as (err & eof & buf' & ts' & pre & post & -> & Hfit & Ht & Hend & Hsz). cbn [obind].
  rewrite Ht. destruct (Z_lt_le_dec 0 size) as [H0|H0].
  - specialize (Hend H0). destruct post as [|y post].
    + destruct Hend as (-> & -> & ->). destruct (Z.eqb_spec e 0) as [->|Hne]; cbn [andb app].
      * destruct (length (concat (map rec_dirent pre)) =? 0)%nat eqn:E0; cbn [andb].
        -- apply (recs_nil dirent_size rec_dirent pre rec_dirent_length dirent_size_pos) in E0 as ->.
           assert (l = []) as -> by (destruct Hfit as [El _]; apply map_nil_inv in El; assumption).
           destruct (test_flag (s_db s) x SYNCED) as [[|]|] eqn:Et; (eexists; split; [reflexivity|]).
           ++ eapply rd_rest; [exact H0|exact Hs|exact Hfit|]. intros _. exact Et.
           ++ apply rd_unknown; [exact H0|exact Hs|congruence].
           ++ apply rd_unknown; [exact H0|exact Hs|congruence].
        -- eexists. split; [reflexivity|]. eapply rd_rest; [exact H0|exact Hs|exact Hfit|]. intros ->. discriminate.
      * eexists. split; [reflexivity|]. eapply rd_error; [exact H0|exact Hs|exact Hfit|exact Hne|destruct He as [?|He]; [contradiction|exact He]|auto].
    + destruct Hend as [-> ->]. cbn [andb app Z.eqb]. eexists. split; [reflexivity|]. eapply rd_part; [exact Hs|exact Hfit|discriminate].
  - destruct (Hsz H0) as [-> ->]. cbn [andb app Z.eqb]. eexists. split; [reflexivity|]. eapply rd_part; [exact Hs|exact Hfit|lia].
Qed.
Lemma answer_two e r : answer [RErr e; RBuf r] = ([RErr e], true).
Proof. reflexivity. Qed.

(** ** readdirplus *)
Definition special (n : bytes) : Prop := n = DOT \/ n = DOTDOT.
Definition lock1 (r : refs) (e : bent) : refs := if decide (special (be_name e)) then r else (incref r (be_ino e) 1).2.
(** entries that are not skipped *)
Definition kept (r : refs) (e : bent) : Prop := special (be_name e) \/ doomed r (be_ino e) = false.
#[global] Instance kept_dec r e : Decision (kept r e).
Proof. unfold kept. apply _. Defined.
(** entries that were added to the buffer *)
Fixpoint eaten (rec : bent -> bytes) (size : Z) (buf : bytes) (l : list bent) : list bent :=
  if Z.of_nat (length buf) <? size then match l with [] => [] | x :: l => x :: eaten rec size (buf ++ rec x) l end else [].
Lemma lock1_doomed r e x : doomed (lock1 r e) x = doomed r x.
Proof.
  unfold lock1. destruct (decide _); [reflexivity|]. unfold incref, doomed. destruct (r !! be_ino e) as [[nn [|]]|] eqn:E; cbn [snd]; [reflexivity|..];
    (destruct (decide (be_ino e = x)) as [<-|]; [rewrite lookup_insert, E; reflexivity|rewrite lookup_insert_ne by assumption; reflexivity]).
Qed.
Lemma locks_doomed L : forall r x, doomed (fold_left lock1 L r) x = doomed r x.
Proof. induction L as [|e L IH]; intros r x; [reflexivity|]. cbn [fold_left]. rewrite IH. apply lock1_doomed. Qed.
Lemma filter_kept r r' (l : list bent) : (forall x, doomed r' x = doomed r x) -> filter (kept r') l = filter (kept r) l.
Proof. intros H. apply list_filter_iff. intros e. unfold kept. rewrite H. reflexivity. Qed.
Lemma rewind_back buf b : plusbuf_rewind (buf ++ b) (length buf) = buf.
Proof.
  unfold plusbuf_rewind. rewrite app_length. destruct (Nat.ltb_spec (length buf) (length buf + length b)) as [Hl|Hl].
  - unfold Fuse.resize. rewrite take_app, app_length. replace (length buf - (length buf + length b))%nat with 0%nat by lia. apply app_nil_r.
  - destruct b; [apply app_nil_r|cbn in Hl; lia].
Qed.
Lemma plus_loop_fill d dir size cur l e : scan d dir cur l e -> Inv d -> forall fuel t buf ts, t_db t = d -> (length l < fuel)%nat ->
  exists t', t_refs t' = fold_left lock1 (eaten rec_plus size buf (filter (kept (t_refs t)) (map to_bent l))) (t_refs t) /\
    let '(err, eof, buf', ts') := fill rec_plus size buf ts (filter (kept (t_refs t)) (map to_bent l)) e in
    plus_loop fuel t dir size cur buf ts = Done (Some (err, buf', ts'), t').
Proof.
  intros Hs H. induction Hs as [cur e Hr|cur x n e Hr Hg|cur x n a l e Hr Hg Hs IH]; intros fuel t buf ts Ht Hf; destruct fuel as [|fuel]; try (cbn [length] in Hf; lia).
  - exists t. cbn [plus_loop]. cbn [map filter list_filter fill eaten]. destruct (Z.of_nat (length buf) <? size); [|split; reflexivity]. rewrite Ht, Hr. split; reflexivity.
  - exists t. cbn [plus_loop]. cbn [map filter list_filter fill eaten]. destruct (Z.of_nat (length buf) <? size); [|split; reflexivity]. rewrite Ht, Hr, Hg. split; reflexivity.
  - cbn [plus_loop]. cbn [map to_bent]. rewrite filter_cons.
    assert (Hn : ~ In 0 n). { destruct (readdir_name _ _ _ _ _ H Hr) as [->|[->|Hv]]; [cbn; lia..|apply valid_name_bytes, Hv]. }
    pose proof (plusbuf_add_spec buf (BEnt n x a x) Hn) as E. cbn [be_name be_ino be_attr be_off] in E.
    destruct (Z.ltb_spec (Z.of_nat (length buf)) size) as [Hlt|Hge].
    2:{ exists t. rewrite <- Z.ltb_ge in Hge. destruct (decide (kept (t_refs t) (BEnt n x a x))); [cbn [fill eaten]|destruct (filter _ _); cbn [fill eaten]]; rewrite Hge; split; reflexivity. }
    cbn [length] in Hf. rewrite Ht, Hr, Hg, E. cbn [obind].
    destruct (decide (special n)) as [Hsp|Hsp].
    { destruct (decide (kept (t_refs t) (BEnt n x a x))) as [_|Hk]; [|exfalso; apply Hk; left; exact Hsp].
      cbn [fill eaten]. rewrite (proj2 (Z.ltb_lt _ _) Hlt). cbn [fold_left]. unfold lock1 at 2. cbn [be_name]. destruct (decide (special n)); [|contradiction].
      destruct (IH fuel t (buf ++ rec_plus (BEnt n x a x)) (length buf) Ht ltac:(lia)) as (t' & R' & E'). exists t'. split; [exact R'|].
      destruct Hsp as [->| ->]; [destruct (decide (DOT = DOT)); [|contradiction]; exact E'|]. destruct (decide (DOTDOT = DOT)); [discriminate|]. destruct (decide (DOTDOT = DOTDOT)); [|contradiction]. exact E'. }
    destruct (decide (n = DOT)) as [->|_]; [exfalso; apply Hsp; left; reflexivity|]. destruct (decide (n = DOTDOT)) as [->|_]; [exfalso; apply Hsp; right; reflexivity|].
    destruct (doomed (t_refs t) x) eqn:Hd.
    + destruct (decide (kept (t_refs t) (BEnt n x a x))) as [[Hk|Hk]|_]; [contradiction|cbn in Hk; congruence|].
      unfold lock. unfold doomed in Hd. destruct (t_refs t !! x) as [[nr dm]|] eqn:Ex; [|discriminate]. subst dm.
      assert (Ei : incref (t_refs t) x 1 = (Err ESTALE, t_refs t)) by (unfold incref; rewrite Ex; reflexivity). rewrite Ei. cbn [obind]. change (ESTALE =? ESTALE) with true. cbv iota. rewrite rewind_back.
      destruct (IH fuel (Tx (t_db t) (t_refs t) (t_hooks t) (t_rw t)) buf (length buf) Ht ltac:(lia)) as (t' & R' & E'). cbn [t_refs] in R', E'. exists t'. rewrite Ht in E'. split; [exact R'|].
      replace (fill rec_plus size buf ts (filter (kept (t_refs t)) (map to_bent l)) e) with (fill rec_plus size buf (length buf) (filter (kept (t_refs t)) (map to_bent l)) e); [rewrite Ht; exact E'|].
      destruct (filter _ _); cbn [fill]; rewrite (proj2 (Z.ltb_lt _ _) Hlt); reflexivity.
    + destruct (decide (kept (t_refs t) (BEnt n x a x))) as [_|Hk]; [|exfalso; apply Hk; right; exact Hd].
      cbn [fill eaten]. rewrite (proj2 (Z.ltb_lt _ _) Hlt). cbn [fold_left].
      assert (Ei : exists z r1, incref (t_refs t) x 1 = (Ok z, r1) /\ r1 = lock1 (t_refs t) (BEnt n x a x)).
      { unfold lock1. cbn [be_name be_ino]. destruct (decide (special n)); [contradiction|]. unfold incref, doomed in *. destruct (t_refs t !! x) as [[nr [|]]|] eqn:Ex; [discriminate|..]; eexists _, _; split; reflexivity. }
      destruct Ei as (z & r1 & Ei & Hr1). unfold lock. rewrite Ei. cbn [obind].
      destruct (IH fuel (Tx (t_db t) r1 (t_hooks t ++ [RbDecref x]) (t_rw t)) (buf ++ rec_plus (BEnt n x a x)) (length buf) Ht ltac:(lia)) as (t' & R' & E'). cbn [t_refs] in R', E'.
      rewrite (filter_kept (t_refs t) r1) in R', E' by (intros y; rewrite Hr1; apply lock1_doomed). exists t'. rewrite <- Hr1. split; [exact R'|exact E'].
Qed.
Lemma eaten_fits f (rec : bent -> bytes) size pre post : (forall e, Z.of_nat (length (rec e)) = f (be_name e)) -> (forall n, 0 < f n) -> forall buf,
  Z.of_nat (length buf) + total_size f pre < size -> (match post with [] => True | y :: _ => size <= Z.of_nat (length buf) + total_size f (pre ++ [y]) end) ->
  eaten rec size buf (pre ++ post) = pre ++ take 1 post.
Proof.
  intros Hf Hp. assert (Htn : forall l, 0 <= total_size f l) by (intros l; induction l as [|y l IH]; [cbn; lia|]; change (total_size f (y :: l)) with (f (be_name y) + total_size f l); specialize (Hp (be_name y)); lia).
  induction pre as [|x pre IH]; intros buf Hlt Hend.
  - cbn [app]. cbn [total_size fold_right] in Hlt. destruct post as [|y post]; cbn [eaten]; rewrite (proj2 (Z.ltb_lt (Z.of_nat (length buf)) size) ltac:(lia)); [reflexivity|]. cbn [take]. f_equal.
    assert (Hge : size <= Z.of_nat (length (buf ++ rec y))) by (rewrite app_length, Nat2Z.inj_add, Hf; cbn in Hend; lia). rewrite <- Z.ltb_ge in Hge. destruct post; cbn [eaten]; rewrite Hge; reflexivity.
  - cbn [app eaten]. change (total_size f (x :: pre)) with (f (be_name x) + total_size f pre) in Hlt. pose proof (Hp (be_name x)). pose proof (Htn pre). rewrite (proj2 (Z.ltb_lt (Z.of_nat (length buf)) size) ltac:(lia)). f_equal.
    apply IH; rewrite app_length, Nat2Z.inj_add, Hf; [lia|]. destruct post as [|y post]; [exact I|]. change (total_size f ((x :: pre) ++ [y])) with (f (be_name x) + total_size f (pre ++ [y])) in Hend. lia.
Qed.
(** the entries whose inodes a readdirplus request locks *)
Definition touched (size : Z) (pre post : list bent) : list bent := if 0 <? size then pre ++ take 1 post else [].
Lemma eaten_touched size l pre post : fits direntplus_size size l pre post -> eaten rec_plus size [] l = touched size pre post.
Proof.
  intros (-> & H1 & H2). unfold touched. destruct (Z.ltb_spec 0 size) as [H0|H0].
  - destruct (H1 H0) as [H3 H4]. apply (eaten_fits direntplus_size); [exact rec_plus_length|exact direntplus_size_pos|cbn [length Z.of_nat]; lia|]. destruct post; [exact I|]. cbn [length Z.of_nat]. lia.
  - rewrite (H2 H0). cbn [app]. assert (size <= Z.of_nat (length (@nil Z))) as Hge by (cbn; lia). rewrite <- Z.ltb_ge in Hge. destruct post; cbn [eaten]; rewrite Hge; reflexivity.
Qed.
(** how many of the entries name [y] and count as a lookup of it *)
Definition uses (y : Z) (L : list bent) : Z := Z.of_nat (length (filter (fun e => ~ special (be_name e) /\ be_ino e = y) L)).
Lemma uses_cons y e L : uses y (e :: L) = (if decide (~ special (be_name e) /\ be_ino e = y) then 1 else 0) + uses y L.
Proof. unfold uses. rewrite filter_cons. destruct (decide _); cbn [length]; lia. Qed.
Lemma uses_app y L1 L2 : uses y (L1 ++ L2) = uses y L1 + uses y L2.
Proof. unfold uses. rewrite filter_app, app_length. lia. Qed.
Lemma uses_nonneg y L : 0 <= uses y L.
Proof. unfold uses. lia. Qed.

Lemma locks_DR d L : forall r W, DR W d r -> W + Z.of_nat (length L) + 3 < 2 ^ 64 ->
  Forall (fun e => ~ special (be_name e) -> d_inodes d !! be_ino e <> None) L ->
  DR (W + Z.of_nat (length L)) d (fold_left lock1 L r) /\ forall y, refcount (fold_left lock1 L r) y = refcount r y + uses y L.
Proof.
  induction L as [|e L IH]; intros r W Hdr HW HL.
  - cbn [length Z.of_nat fold_left]. rewrite Z.add_0_r. split; [assumption|]. intros y. unfold uses. cbn. lia.
  - inversion HL as [|? ? He HL']; subst. cbn [length] in HW. cbn [fold_left].
    assert (Hstep : DR (W + 1) d (lock1 r e) /\ forall y, refcount (lock1 r e) y = refcount r y + if decide (~ special (be_name e) /\ be_ino e = y) then 1 else 0).
    { unfold lock1. destruct (decide (special (be_name e))) as [Hs|Hs].
      - split; [|intros y; destruct (decide _) as [[? ?]|]; [contradiction|lia]]. destruct Hdr as [? ? (n & ? & ?) Hc ? ?]. split; try assumption; [exists n; split; [assumption|lia]|intros y; specialize (Hc y); lia].
      - destruct (lock_present d r [] None (be_ino e) W Hdr ltac:(lia) (He Hs)) as (t2 & E2 & Hd2 & R2).
        pose proof (way_lock W _ W (Tx d r [] None) (be_ino e) t2 (way_begin W d r Hdr) ltac:(lia) (He Hs) E2) as Hw. pose proof (wy_dr _ _ _ _ Hw) as Hdr2.
        assert (Hr2 : t_refs t2 = (incref r (be_ino e) 1).2).
        { unfold lock in E2. cbn [t_refs t_db t_hooks t_rw] in E2. destruct (incref r (be_ino e) 1) as [[?|?] r2] eqn:Ei; [|discriminate]. injection E2; intros; subst t2. reflexivity. }
        rewrite Hd2, Hr2 in Hdr2. split; [assumption|]. intros y. rewrite <- Hr2, R2. destruct (Z.eqb_spec (be_ino e) y); destruct (decide (~ special (be_name e) /\ be_ino e = y)) as [[? ?]|Hn]; try lia. exfalso. apply Hn. auto. }
    destruct Hstep as [Hdr1 R1]. destruct (IH (lock1 r e) (W + 1) Hdr1 ltac:(lia) HL') as [Hdr2 R2].
    split; [replace (W + Z.of_nat (length (e :: L))) with (W + 1 + Z.of_nat (length L)) by (cbn [length]; lia); assumption|].
    intros y. rewrite R2, R1, uses_cons. lia.
Qed.
Lemma total_length f l : (forall n, 0 < f n) -> Z.of_nat (length l) <= total_size f l.
Proof. intros Hp. induction l as [|e l IH]; [cbn; lia|]. change (total_size f (e :: l)) with (f (be_name e) + total_size f l). specialize (Hp (be_name e)). cbn [length]. lia. Qed.
Lemma touched_length size l pre post : fits direntplus_size size l pre post -> Z.of_nat (length (touched size pre post)) <= Z.max 0 size + 1.
Proof.
  intros (_ & H1 & _). unfold touched. destruct (Z.ltb_spec 0 size) as [H0|H0]; [|cbn; lia]. destruct (H1 H0) as [Hlt _]. pose proof (total_length direntplus_size pre direntplus_size_pos). rewrite app_length, take_length. lia.
Qed.
Lemma kept_list r l : Forall (kept r) (filter (kept r) l).
Proof. apply Forall_forall. intros e He. apply elem_of_list_filter in He. tauto. Qed.
Lemma touched_in size pre post e : e ∈ touched size pre post -> e ∈ pre ++ post.
Proof. unfold touched. destruct (0 <? size); [|set_solver]. rewrite !elem_of_app. intros [?|H]; [auto|right]. destruct post; [cbn in H; set_solver|]. cbn in H. set_solver. Qed.

(** entries of a scan exist *)
Lemma scan_has d dir cur l e : scan d dir cur l e -> Forall (fun b => getattr d (be_ino b) = Ok (be_attr b)) (map to_bent l).
Proof. induction 1; cbn [map to_bent]; constructor; assumption. Qed.

Lemma h_plus_total W s k id size off snap dir : FInv W s k -> s_plus s !! id = Some (snap, dir) -> W + weight s (QPlusRun id size off) + 3 < 2 ^ 64 ->
  exists l e pre post rep, scan snap dir (w64 off) l e /\ fits direntplus_size size (filter (kept (s_refs s)) (map to_bent l)) pre post /\
    let r' := fold_left lock1 (touched size pre post) (s_refs s) in
    h_plus s id size off = Done (Fst (s_db s) r' (delete id (s_plus s)), [rep]) /\
    DR (W + weight s (QPlusRun id size off)) (s_db s) r' /\
    (forall y, refcount r' y = refcount (s_refs s) y + uses y (touched size pre post)) /\
    (rep = RBuf (concat (map rec_plus pre)) /\ (0 < size -> post = [] -> e = 0) \/
     rep = RErr e /\ e <> 0 /\ 0 < size /\ post = [] /\ (e = ENOENT \/ e = EIO) /\ (l = [] /\ ~ has_inode snap dir \/ is_orphan snap dir)).
Proof.
  intros HF Hid HW. destruct (fi_snap _ _ _ HF _ _ _ Hid) as [Hsi Hcov]. destruct (scan_total snap dir (w64 off) Hsi) as (l & e & Hs & Hlen & He & Ho).
  unfold h_plus. rewrite Hid.
  destruct (plus_loop_fill _ _ size _ _ _ Hs Hsi (dir_fuel snap) (begin_tx snap (s_refs s)) [] 0 eq_refl ltac:(unfold dir_fuel; lia)) as (t' & R' & E'). cbn [t_refs begin_tx] in R', E'.
  destruct (fill_start direntplus_size rec_plus size (filter (kept (s_refs s)) (map to_bent l)) e rec_plus_length) as (err & eof & buf' & ts' & pre & post & Ef & Hfit & Ht & Hend & Hsz).
  change (begin_tx snap (s_refs s)) with (Tx snap (s_refs s) [] None) in *. rewrite Ef in E'. rewrite E'. cbn [obind]. rewrite (eaten_touched _ _ _ _ Hfit) in R'.
  pose proof (touched_length _ _ _ _ Hfit) as HTl. cbn [weight] in HW |- *.
  destruct (locks_DR (s_db s) (touched size pre post) (s_refs s) W (fi_dr _ _ _ HF) ltac:(lia)) as [Hdr HR].
  { apply Forall_forall. intros b Hb Hsp. apply touched_in in Hb. destruct Hfit as (El & _). rewrite <- El in Hb. apply elem_of_list_filter in Hb as [[?|Hk] Hb]; [contradiction|].
    pose proof (proj1 (Forall_forall _ _) (scan_has _ _ _ _ _ Hs) b Hb) as Hg. cbn in Hg. apply getattr_Ok in Hg as (i & Hi & _).
    destruct (proj1 Hcov _ _ Hi) as [(j & Hj & _)|Hd]; [congruence|congruence]. }
  exists l, e, pre, post, (if err =? 0 then RBuf (take ts' buf') else RErr err). split; [exact Hs|]. split; [exact Hfit|]. cbv zeta. rewrite <- R'. split; [destruct (err =? 0); reflexivity|].
  split; [rewrite R'; destruct Hdr as [? ? (n & ? & ?) Hc ? ?]; split; try assumption; [exists n; split; [assumption|lia]|intros y; specialize (Hc y); lia]|]. split; [rewrite R'; exact HR|].
  rewrite Ht. destruct (Z_lt_le_dec 0 size) as [H0|H0].
  - specialize (Hend H0). destruct post as [|y post].
    + destruct Hend as (-> & _). destruct (Z.eqb_spec e 0) as [->|Hne]; [left; auto|right]. split; [reflexivity|]. split; [assumption|]. split; [assumption|]. split; [reflexivity|]. split; [destruct He as [?|?]; [contradiction|assumption]|auto].
    + destruct Hend as [-> _]. left. split; [reflexivity|discriminate].
  - destruct (Hsz H0) as [-> _]. left. split; [reflexivity|lia].
Qed.
