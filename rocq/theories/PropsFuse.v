(** C42 (requests are answered at most once, and dropped requests exactly once) and C46
    (directory buffers). *)
From Verif Require Import Fuse.

(** ** C42 *)
(** A program: operations on request objects in any order.  An operation that throws (a
    checked reply on an empty object) leaves everything as it is and the program goes on. *)
Inductive rrun : rworld -> list rop -> rworld -> Prop :=
| rrun_nil w : rrun w [] w
| rrun_step w o w1 l w2 : rstep w o = Done w1 -> rrun w1 l w2 -> rrun w (o :: l) w2
| rrun_throw w o l w2 : rstep w o = Throw -> rrun w l w2 -> rrun w (o :: l) w2.
(** requests given to constructors *)
Definition taken (o : rop) : list Z := match o with RNew _ q _ => [q] | _ => [] end.
Definition incoming (l : list rop) : list Z := concat (map taken l).
Definition rempty : rworld := RW ∅ [] [].
(** how often a request was answered *)
Definition answers (w : rworld) (q : Z) : nat := length (filter (fun p => p.1 = q) (w_sent w)).
Definition holders (w : rworld) (q : Z) : gmap Z robj := filter (fun p => m_req p.2 = Some q) (w_objs w).

Lemma filter_insert_size (P : Z * robj -> Prop) `{!forall x, Decision (P x)} (m : gmap Z robj) k v :
  size (filter P (<[k := v]> m)) = (size (filter P (delete k m)) + if decide (P (k, v)) then 1 else 0)%nat.
Proof.
  rewrite <- insert_delete_insert. destruct (decide (P (k, v))) as [HP|HP].
  - rewrite map_filter_insert_True by assumption. rewrite map_size_insert_None; [lia|]. apply map_filter_lookup_None. left. apply lookup_delete.
  - rewrite map_filter_insert_False by assumption. rewrite delete_idemp. lia.
Qed.
Lemma filter_delete_size (P : Z * robj -> Prop) `{!forall x, Decision (P x)} (m : gmap Z robj) k v :
  m !! k = Some v -> size (filter P m) = (size (filter P (delete k m)) + if decide (P (k, v)) then 1 else 0)%nat.
Proof. intros E. rewrite <- (insert_id m k v E) at 1. apply filter_insert_size. Qed.
Lemma filter_delete_size_none (P : Z * robj -> Prop) `{!forall x, Decision (P x)} (m : gmap Z robj) k :
  m !! k = None -> size (filter P (delete k m)) = size (filter P m).
Proof. intros E. rewrite delete_notin by assumption. reflexivity. Qed.

(** for every request: objects holding it + answers + hand-backs = times it came in *)
Definition ledger (w : rworld) (q : Z) : nat := (size (holders w q) + answers w q + length (filter (.= q) (w_given w)))%nat.
Lemma answers_app w q q' r : answers (RW (w_objs w) (w_sent w ++ [(q', r)]) (w_given w)) q = (answers w q + if decide (q' = q) then 1 else 0)%nat.
Proof.
  unfold answers. cbn [w_sent]. rewrite filter_app, app_length. cbn. destruct (decide (q' = q)); reflexivity.
Qed.
Definition one (b : bool) : nat := if b then 1%nat else 0%nat.
Definition holds (o : robj) (q : Z) : nat := if decide (m_req o = Some q) then 1%nat else 0%nat.
Lemma holders_insert os s g x v q : size (holders (RW (<[x := v]> os) s g) q) = (size (holders (RW (delete x os) s g) q) + holds v q)%nat.
Proof. unfold holders, holds. cbn [w_objs]. rewrite filter_insert_size. reflexivity. Qed.
Lemma holders_at os s g x v q : os !! x = Some v -> size (holders (RW os s g) q) = (size (holders (RW (delete x os) s g) q) + holds v q)%nat.
Proof. intros E. unfold holders, holds. cbn [w_objs]. rewrite (filter_delete_size _ _ _ _ E). reflexivity. Qed.
Lemma holds_none e q : holds (RObj None e) q = 0%nat.
Proof. reflexivity. Qed.
Lemma holders_sent os s s' g g' q : holders (RW os s g) q = holders (RW os s' g') q.
Proof. reflexivity. Qed.

Lemma ledger_send x q o r w q' : w_objs w !! x = Some o -> m_req o = Some q -> ledger (send x q o r w) q' = ledger w q'.
Proof.
  intros Ex Eq. destruct w as [os s g]. unfold ledger, send. cbn [w_objs w_sent w_given].
  rewrite holders_insert, holds_none. rewrite (holders_at os s g x o q' Ex).
  unfold answers. cbn [w_sent]. rewrite filter_app, app_length. unfold holds. rewrite Eq. cbn.
  rewrite (holders_sent (delete x os) (s ++ [(q, r)]) s g g).
  destruct (decide (q = q')) as [->|Hne]; [rewrite decide_True by reflexivity; cbn; lia|rewrite decide_False by congruence; cbn; lia].
Qed.
Lemma ledger_reset x w q : ledger (reset_if_set x w) q = ledger w q.
Proof.
  unfold reset_if_set. destruct (w_objs w !! x) as [[[q'|] e]|] eqn:Ex; try reflexivity. apply ledger_send; auto.
Qed.
Lemma reset_obj x w : (exists o, w_objs w !! x = Some o) -> exists e, w_objs (reset_if_set x w) !! x = Some (RObj None e).
Proof.
  intros [[[q|] e] Ex]; unfold reset_if_set; rewrite Ex; [|eauto]. unfold send. cbn. rewrite lookup_insert. eauto.
Qed.
Lemma reset_other x y w : x <> y -> w_objs (reset_if_set x w) !! y = w_objs w !! y.
Proof.
  intros Hne. unfold reset_if_set. destruct (w_objs w !! x) as [[[q|] e]|]; try reflexivity. unfold send. cbn. rewrite lookup_insert_ne by assumption. reflexivity.
Qed.

Lemma ledger_step w o w' q : rstep w o = Done w' -> ledger w' q = (ledger w q + length (filter (.= q) (taken o)))%nat.
Proof.
  intros E. assert (Hz : forall k, (k + length (filter (.= q) (@nil Z)) = k)%nat) by (intros; cbn; lia).
  destruct o as [x|x q0 e|x y|x y|x|x|x r|x|x|x y]; cbn [rstep taken] in *; rewrite ?Hz.
  - destruct (w_objs w !! x) eqn:Ex; [discriminate|]. injection E as <-. destruct w as [os s g]. unfold ledger, with_objs. cbn [w_objs w_sent w_given] in *.
    rewrite holders_insert, holds_none. unfold holders, answers. cbn. rewrite filter_delete_size_none by assumption. lia.
  - destruct (w_objs w !! x) eqn:Ex; [discriminate|]. injection E as <-. destruct w as [os s g]. unfold ledger, with_objs. cbn [w_objs w_sent w_given] in *.
    rewrite holders_insert. unfold holders, answers, holds. cbn. rewrite filter_delete_size_none by assumption.
    destruct (decide (q0 = q)) as [->|Hne]; [rewrite decide_True by reflexivity|rewrite decide_False by congruence]; cbn; lia.
  - destruct (w_objs w !! x) eqn:Ex; [discriminate|]. destruct (w_objs w !! y) as [oy|] eqn:Ey; [|discriminate]. injection E as <-.
    destruct w as [os s g]. unfold ledger, with_objs. cbn [w_objs w_sent w_given] in *.
    assert (Hne : x <> y) by congruence.
    rewrite holders_insert, holds_none. rewrite delete_insert_ne by congruence. rewrite holders_insert. rewrite (holders_at os s g y oy q Ey).
    unfold holders, answers. cbn. rewrite filter_delete_size_none by (rewrite lookup_delete_ne by congruence; assumption). lia.
  - destruct (w_objs w !! x) as [ox|] eqn:Ex; [|discriminate]. destruct (w_objs w !! y) as [oy|] eqn:Ey; [|discriminate].
    pose proof (ledger_reset x w q) as HL. destruct (reset_obj x w (ex_intro _ ox Ex)) as [ex Ex'].
    set (w1 := reset_if_set x w) in *. destruct (w_objs w1 !! y) as [oy1|] eqn:Ey1; [|discriminate]. injection E as <-. rewrite <- HL. clearbody w1. clear HL Ex Ey w.
    destruct w1 as [os s g]. unfold ledger, with_objs. cbn [w_objs w_sent w_given] in *. unfold answers. cbn [w_sent].
    destruct (decide (x = y)) as [<-|Hne].
    + assert (oy1 = RObj None ex) by congruence. subst. rewrite insert_insert. rewrite holders_insert, holds_none. rewrite (holders_at os s g x _ q Ex'), holds_none. lia.
    + rewrite holders_insert, holds_none. rewrite delete_insert_ne by congruence. rewrite holders_insert. rewrite (holders_at os s g y oy1 q Ey1).
      rewrite (holders_at (delete y os) s g x (RObj None ex) q) by (rewrite lookup_delete_ne by congruence; assumption). rewrite holds_none. lia.
  - destruct (w_objs w !! x) as [ox|] eqn:Ex; [|discriminate]. pose proof (ledger_reset x w q) as HL. destruct (reset_obj x w (ex_intro _ ox Ex)) as [ex Ex'].
    set (w1 := reset_if_set x w) in *. rewrite Ex' in E. injection E as <-. rewrite <- HL. destruct w1 as [os s g]. unfold ledger, with_objs. cbn [w_objs w_sent w_given m_def] in *.
    rewrite insert_id by assumption. reflexivity.
  - destruct (w_objs w !! x) as [ox|] eqn:Ex; [|discriminate]. pose proof (ledger_reset x w q) as HL. destruct (reset_obj x w (ex_intro _ ox Ex)) as [ex Ex'].
    set (w1 := reset_if_set x w) in *. injection E as <-. rewrite <- HL. destruct w1 as [os s g]. unfold ledger, with_objs, answers. cbn [w_objs w_sent w_given m_def] in *.
    rewrite (holders_at os s g x _ q Ex'), holds_none. lia.
  - unfold reply_checked in E. destruct (w_objs w !! x) as [ox|] eqn:Ex; [|discriminate]. destruct (m_req ox) as [q0|] eqn:Eq; [|discriminate].
    injection E as <-. apply ledger_send; assumption.
  - unfold reply_none in E. destruct (w_objs w !! x) as [ox|] eqn:Ex; [|discriminate]. destruct (m_req ox) as [q0|] eqn:Eq; [|discriminate].
    injection E as <-. apply ledger_send; assumption.
  - destruct (w_objs w !! x) as [ox|] eqn:Ex; [|discriminate]. injection E as <-. destruct w as [os s g]. unfold ledger, answers. cbn [w_objs w_sent w_given] in *.
    rewrite holders_insert, holds_none. rewrite (holders_at os s g x _ q Ex). rewrite filter_app, app_length. unfold holds.
    rewrite (holders_sent (delete x os) s s (g ++ match m_req ox with Some q => [q] | None => [] end) g).
    destruct (m_req ox) as [q0|]; [|rewrite decide_False by discriminate; cbn; lia].
    destruct (decide (q0 = q)) as [->|Hne]; [rewrite decide_True by reflexivity|rewrite decide_False by congruence];
      rewrite filter_cons; [rewrite decide_True by reflexivity|rewrite decide_False by assumption]; cbn; lia.
  - destruct (w_objs w !! x) as [ox|] eqn:Ex; [|discriminate]. destruct (w_objs w !! y) as [oy|] eqn:Ey; [|discriminate]. injection E as <-.
    destruct w as [os s g]. unfold ledger, with_objs, answers. cbn [w_objs w_sent w_given] in *.
    destruct (decide (x = y)) as [<-|Hne].
    + assert (oy = ox) by congruence. subst. rewrite insert_insert. replace (RObj (m_req ox) (m_def ox)) with ox by (destruct ox; reflexivity). rewrite insert_id by assumption. lia.
    + rewrite holders_insert. rewrite delete_insert_ne by congruence. rewrite holders_insert. rewrite (holders_at os s g y oy q Ey).
      rewrite (holders_at (delete y os) s g x ox q) by (rewrite lookup_delete_ne by congruence; assumption). unfold holds. cbn [m_req]. lia.
Qed.
Lemma ledger_throw w o (q : Z) : rstep w o = Throw -> taken o = [].
Proof.
  destruct o as [x|x q0 e|x y|x y|x|x|x r|x|x|x y]; cbn [rstep]; try reflexivity. destruct (w_objs w !! x); discriminate.
Qed.
Lemma ledger_run w l w' q : rrun w l w' -> ledger w' q = (ledger w q + length (filter (.= q) (incoming l)))%nat.
Proof.
  induction 1 as [w|w o w1 l w2 E Hr IH|w o l w2 E Hr IH]; [cbn; lia| |].
  - rewrite IH, (ledger_step _ _ _ _ E). unfold incoming. cbn [map concat]. rewrite filter_app, app_length. lia.
  - rewrite IH. unfold incoming. cbn [map concat]. rewrite (ledger_throw _ _ q E). reflexivity.
Qed.
Lemma nodup_count (l : list Z) q : NoDup l -> length (filter (.= q) l) = if decide (q ∈ l) then 1%nat else 0%nat.
Proof.
  induction l as [|a l IH]; intros Hn; [rewrite decide_False by apply not_elem_of_nil; reflexivity|]. apply NoDup_cons in Hn as [Ha Hl]. specialize (IH Hl).
  rewrite filter_cons. destruct (decide (a = q)) as [->|Hne].
  - rewrite (decide_True (P := q ∈ q :: l)) by (left). rewrite decide_False in IH by assumption. cbn. rewrite IH. reflexivity.
  - rewrite IH. destruct (decide (q ∈ l)); [rewrite decide_True by (right; assumption)|rewrite decide_False by (rewrite elem_of_cons; intros [?|?]; congruence)]; reflexivity.
Qed.

(** Whatever a program does with request objects (each request of the kernel enters once):
    no request is answered twice; after every object is gone, each request was answered
    exactly once or handed back by release(), and never both. *)
Theorem C42_at_most_one_reply : forall l w, rrun rempty l w -> NoDup (incoming l) ->
  forall q, (answers w q <= 1)%nat /\ (answers w q = 1%nat -> q ∈ incoming l /\ q ∉ w_given w /\ forall x o, w_objs w !! x = Some o -> m_req o <> Some q).
Proof.
  intros l w Hr Hn q. pose proof (ledger_run _ _ _ q Hr) as HL. rewrite nodup_count in HL by assumption. unfold ledger at 2 in HL. cbn in HL.
  replace (size (holders rempty q)) with 0%nat in HL by reflexivity. unfold ledger in HL.
  split; [destruct (decide _); lia|]. intros Ha. rewrite Ha in HL. destruct (decide (q ∈ incoming l)) as [Hin|Hin]; [|lia].
  split; [assumption|]. split.
  - intros Hg. assert (Hf : q ∈ filter (.= q) (w_given w)) by (apply elem_of_list_filter; auto). destruct (filter (.= q) (w_given w)); [apply elem_of_nil in Hf; contradiction|cbn in HL; lia].
  - intros x o Ex Eo. assert (Hh : holders w q !! x = Some o) by (apply map_filter_lookup_Some; auto).
    assert (size (holders w q) <> 0%nat); [|lia]. apply map_size_non_empty_iff. intros Hem. rewrite Hem, lookup_empty in Hh. discriminate.
Qed.
Print Assumptions C42_at_most_one_reply.
Theorem C42_exactly_one_reply : forall l w, rrun rempty l w -> NoDup (incoming l) -> w_objs w = ∅ ->
  forall q, q ∈ incoming l -> q ∉ w_given w -> answers w q = 1%nat.
Proof.
  intros l w Hr Hn He q Hq Hg. pose proof (ledger_run _ _ _ q Hr) as HL. rewrite nodup_count in HL by assumption. rewrite decide_True in HL by assumption.
  change (ledger rempty q) with 0%nat in HL. unfold ledger, holders in HL. rewrite He in HL. rewrite map_filter_empty, map_size_empty in HL.
  replace (length (filter (.= q) (w_given w))) with 0%nat in HL; [lia|].
  symmetry. apply length_zero_iff_nil. destruct (filter (.= q) (w_given w)) as [|z l0] eqn:Ef; [reflexivity|].
  assert (Hz : z ∈ filter (.= q) (w_given w)) by (rewrite Ef; left). apply elem_of_list_filter in Hz as [-> Hz]. contradiction.
Qed.
Print Assumptions C42_exactly_one_reply.
(** destroying or overwriting an object that still owes an answer sends its default error; one
    that was answered, released or moved from sends nothing *)
Theorem C42_default_reply : forall w x o, w_objs w !! x = Some o ->
  exists w', rstep w (RDestroy x) = Done w' /\
    w_sent w' = w_sent w ++ (match m_req o with Some q => [(q, RErr (m_def o))] | None => [] end) /\
    (forall y, w_objs w' !! y = if decide (x = y) then None else w_objs w !! y).
Proof.
  intros w x [[q|] e] Ex; cbn [rstep]; rewrite Ex; eexists; (split; [reflexivity|]); unfold reset_if_set; rewrite Ex; unfold send, with_objs; cbn [w_sent w_objs m_req m_def].
  - split; [reflexivity|]. intros y. destruct (decide (x = y)) as [<-|Hne]; [apply lookup_delete|]. rewrite lookup_delete_ne, lookup_insert_ne by assumption. reflexivity.
  - rewrite app_nil_r. split; [reflexivity|]. intros y. destruct (decide (x = y)) as [<-|Hne]; [apply lookup_delete|]. rewrite lookup_delete_ne by assumption. reflexivity.
Qed.
Theorem C42_moved_from_is_silent : forall w x y w', rstep w (RMove x y) = Done w' ->
  (exists e, w_objs w' !! y = Some (RObj None e)) /\ w_objs w' !! x = w_objs w !! y /\ w_sent w' = w_sent w /\
  forall r, rstep w' (RReply y r) = Throw.
Proof.
  intros w x y w' E. cbn [rstep] in E. destruct (w_objs w !! x) eqn:Ex; [discriminate|]. destruct (w_objs w !! y) as [o|] eqn:Ey; [|discriminate]. injection E as <-.
  assert (Hne : x <> y) by congruence. unfold with_objs. cbn [w_objs w_sent]. rewrite lookup_insert. split; [eauto|]. split; [rewrite lookup_insert_ne by congruence; apply lookup_insert|].
  split; [reflexivity|]. intros r. cbn [rstep]. unfold reply_checked. cbn [w_objs]. rewrite lookup_insert. reflexivity.
Qed.
Print Assumptions C42_default_reply.
Print Assumptions C42_moved_from_is_silent.
(** two requests, a move, a swap, a caught second reply, an overwrite and a hand-back *)
Definition c42_ops : list rop :=
  [RNew 0 10 ECANCELED; RMove 1 0; RReply 1 (RErr ENOENT); RReply 1 (RErr EIO); RNew 2 11 EIO; RNewEmpty 3; RSwap 2 3; RNew 4 12 EIO; RAssign 3 4;
   RNew 5 13 EIO; RRelease 5; RReplyNone 3; RDestroy 0; RDestroy 1; RDestroy 2; RDestroy 3; RDestroy 4; RDestroy 5].
Example C42_sample : exists w, rrun rempty c42_ops w /\ NoDup (incoming c42_ops) /\ w_objs w = ∅ /\
  w_sent w = [(10, RErr ENOENT); (11, RErr ECANCELED); (12, RNone)] /\ w_given w = [13].
Proof.
  eexists. split.
  { do 3 (eapply rrun_step; [vm_compute; reflexivity|]). eapply rrun_throw; [vm_compute; reflexivity|]. do 14 (eapply rrun_step; [vm_compute; reflexivity|]). apply rrun_nil. }
  split; [apply (bool_decide_eq_true_1 _); vm_compute; reflexivity|]. split; [apply map_to_list_empty_iff; vm_compute; reflexivity|]. split; reflexivity.
Qed.
(** reply_none does not check: on an empty object it crashes instead of throwing *)
Theorem C42_reply_none_unchecked : forall w x e, w_objs w !! x = Some (RObj None e) -> rstep w (RReplyNone x) = Crash.
Proof. intros w x e E. cbn. unfold reply_none. rewrite E. reflexivity. Qed.

(** ** C46: directory buffers *)
(** How the kernel reads a directory reply (fs/fuse/readdir.c): records of 24 bytes and a
    name, padded to 8 bytes; an incomplete record ends it. *)
Record kent := KEnt { ke_ino : Z; ke_off : Z; ke_type : Z; ke_name : bytes }.
Fixpoint kparse (fuel : nat) (b : bytes) : list kent :=
  match fuel with
  | O => []
  | S fuel =>
    if (length b <? 24)%nat then []
    else
      let ino := unle (take 8 b) in
      let off := unle (take 8 (drop 8 b)) in
      let nlen := unle (take 4 (drop 16 b)) in
      let typ := unle (take 4 (drop 20 b)) in
      let name := take (Z.to_nat nlen) (drop 24 b) in
      let rec := align8 (24 + nlen) in
      if Z.of_nat (length b) <? rec then []
      else KEnt ino off typ name :: kparse fuel (drop (Z.to_nat rec) b)
  end.
Definition kernel_reads (b : bytes) : list kent := kparse (length b) b.
(** the same with the 128 bytes of struct fuse_entry_out before each record: nodeid first,
    attributes from byte 40 *)
Record kplus := KPlus { kp_node : Z; kp_attr_ino : Z; kp_size : Z; kp_mtime : Z; kp_mode : Z; kp_uid : Z; kp_gid : Z; kp_ent : kent }.
Fixpoint kparse_plus (fuel : nat) (b : bytes) : list kplus :=
  match fuel with
  | O => []
  | S fuel =>
    if (length b <? 152)%nat then []
    else
      let f w o := unle (take w (drop o b)) in
      let nlen := f 4%nat 144%nat in
      let name := take (Z.to_nat nlen) (drop 152 b) in
      let rec := align8 (152 + nlen) in
      if Z.of_nat (length b) <? rec then []
      else KPlus (f 8%nat 0%nat) (f 8%nat 40%nat) (f 8%nat 48%nat) (f 8%nat 72%nat) (f 4%nat 100%nat) (f 4%nat 108%nat) (f 4%nat 112%nat)
             (KEnt (f 8%nat 128%nat) (f 8%nat 136%nat) (f 4%nat 148%nat) name) :: kparse_plus fuel (drop (Z.to_nat rec) b)
  end.
Definition kernel_reads_plus (b : bytes) : list kplus := kparse_plus (length b) b.

(** one entry as passed to add() *)
Record bent := BEnt { be_name : bytes; be_ino : Z; be_attr : attrs; be_off : Z }.
Definition bent_ok (e : bent) : Prop :=
  ~ In 0 (be_name e) /\ Z.of_nat (length (be_name e)) < 2 ^ 32 /\ u64 (be_ino e) /\ attrs_ok (be_attr e) /\ s64 (be_off e).
Fixpoint adds (buf : bytes) (l : list bent) : outcome bytes :=
  match l with [] => Done buf | e :: l => dlet buf := dirbuf_add buf (be_name e) (be_ino e) (be_attr e) (be_off e) in adds buf l end.
Fixpoint adds_plus (buf : bytes) (l : list bent) : outcome bytes :=
  match l with [] => Done buf | e :: l => dlet buf := plusbuf_add buf (be_name e) (be_ino e) (be_attr e) (be_off e) in adds_plus buf l end.
Definition total_size (f : bytes -> Z) (l : list bent) : Z := fold_right (fun e s => f (be_name e) + s) 0 l.

Lemma align8_ge z : z <= align8 z < z + 8.
Proof. unfold align8. pose proof (Z.div_mod (z + 7) 8 ltac:(lia)). pose proof (Z.mod_pos_bound (z + 7) 8 ltac:(lia)). lia. Qed.
Lemma resize_grow buf n : resize buf (length buf + n) = buf ++ repeat 0 n.
Proof. unfold resize. rewrite take_ge by lia. f_equal. f_equal. lia. Qed.
Lemma write_append (buf b : bytes) n : length b = n -> write_at (buf ++ repeat 0 n) (length buf) b = Done (buf ++ b).
Proof.
  intros Hn. unfold write_at. rewrite app_length, repeat_length.
  destruct (Nat.ltb_spec (length buf + n) (length buf + length b)) as [?|_]; [lia|]. f_equal.
  rewrite take_app. f_equal. rewrite drop_ge by (rewrite app_length, repeat_length; lia). apply app_nil_r.
Qed.
Lemma cstr_id n : ~ In 0 n -> cstr n = n.
Proof.
  induction n as [|c n IH]; intros Hn; [reflexivity|]. cbn [cstr]. destruct (Z.eqb_spec c 0) as [->|]; [exfalso; apply Hn; left; reflexivity|].
  f_equal. apply IH. intros Hin. apply Hn. right. assumption.
Qed.
Lemma enc_dirent_length ino off mode name : length (enc_dirent ino off mode name) = (24 + length name)%nat.
Proof. unfold enc_dirent. cbn [concat]. rewrite !app_length, !le_length. cbn [length]. lia. Qed.
Lemma enc_attr_length ino a : length (enc_attr ino a) = 88%nat.
Proof. reflexivity. Qed.
Lemma enc_entry_length ino a : length (enc_entry ino a) = 128%nat.
Proof. reflexivity. Qed.
Lemma pad_length n b : Z.of_nat (length b) <= n -> length (pad_to n b) = Z.to_nat n.
Proof. intros H. unfold pad_to. rewrite app_length, repeat_length. lia. Qed.

Definition rec_dirent (e : bent) : bytes :=
  pad_to (dirent_size (be_name e)) (enc_dirent (be_ino e) (be_off e) (a_mode (be_attr e)) (be_name e)).
Definition rec_plus (e : bent) : bytes :=
  pad_to (direntplus_size (be_name e)) (enc_entry (be_ino e) (be_attr e) ++ enc_dirent (be_ino e) (be_off e) (a_mode (be_attr e)) (be_name e)).
Lemma rec_dirent_length e : Z.of_nat (length (rec_dirent e)) = dirent_size (be_name e).
Proof.
  unfold rec_dirent, dirent_size. pose proof (align8_ge (24 + Z.of_nat (length (be_name e)))). rewrite pad_length; [lia|].
  rewrite enc_dirent_length. lia.
Qed.
Lemma rec_plus_length e : Z.of_nat (length (rec_plus e)) = direntplus_size (be_name e).
Proof.
  unfold rec_plus, direntplus_size. pose proof (align8_ge (152 + Z.of_nat (length (be_name e)))). rewrite pad_length; [lia|].
  rewrite app_length, enc_dirent_length, enc_entry_length. lia.
Qed.
Lemma dirbuf_add_spec buf e : ~ In 0 (be_name e) -> dirbuf_add buf (be_name e) (be_ino e) (be_attr e) (be_off e) = Done (buf ++ rec_dirent e).
Proof.
  intros Hn. unfold dirbuf_add. rewrite cstr_id by assumption. unfold dirbuf_prepare. cbn [add_direntry fst].
  pose proof (rec_dirent_length e) as HL. set (n := dirent_size (be_name e)) in *.
  rewrite resize_grow. rewrite app_length, repeat_length. unfold add_direntry. fold n.
  destruct (Z.ltb_spec (Z.of_nat (length buf + Z.to_nat n) - Z.of_nat (length buf)) n) as [?|_]; [lia|]. cbn [snd].
  apply (write_append buf (rec_dirent e)). lia.
Qed.
Lemma plusbuf_add_spec buf e : ~ In 0 (be_name e) -> plusbuf_add buf (be_name e) (be_ino e) (be_attr e) (be_off e) = Done (buf ++ rec_plus e).
Proof.
  intros Hn. unfold plusbuf_add. rewrite cstr_id by assumption. unfold plusbuf_prepare. cbn [add_direntry_plus fst].
  pose proof (rec_plus_length e) as HL. set (n := direntplus_size (be_name e)) in *.
  rewrite resize_grow. rewrite app_length, repeat_length. unfold add_direntry_plus. fold n.
  destruct (Z.ltb_spec (Z.of_nat (length buf + Z.to_nat n) - Z.of_nat (length buf)) n) as [?|_]; [lia|]. cbn [snd].
  apply (write_append buf (rec_plus e)). lia.
Qed.

Lemma unle_take w z rest : 0 <= z < 256 ^ Z.of_nat w -> unle (take w (le w z ++ rest)) = z.
Proof. intros H. rewrite take_app_alt by (rewrite le_length; reflexivity). apply unle_le. assumption. Qed.
Lemma drop_le w z k (rest : bytes) : drop (w + k) (le w z ++ rest) = drop k rest.
Proof. rewrite drop_app_ge by (rewrite le_length; lia). rewrite le_length. f_equal. lia. Qed.
Lemma unle_at o w z (pre rest : bytes) : length pre = o -> 0 <= z < 256 ^ Z.of_nat w -> unle (take w (drop o (pre ++ le w z ++ rest))) = z.
Proof. intros Hl Hz. rewrite drop_app_alt by (symmetry; assumption). apply unle_take. assumption. Qed.
(** what the kernel should see for an entry *)
Definition want (e : bent) : kent := KEnt (be_ino e) (w64 (be_off e)) (w32 (Z.shiftr (ftype (a_mode (be_attr e))) 12)) (be_name e).
Definition want_plus (e : bent) : kplus :=
  let a := be_attr e in KPlus (be_ino e) (be_ino e) (a_size a) (w64 (a_mtime a).1) (a_mode a) (a_uid a) (a_gid a) (want e).

Lemma rec_dirent_shape e : exists pad, rec_dirent e = le 8 (be_ino e) ++ le 8 (w64 (be_off e)) ++ le 4 (Z.of_nat (length (be_name e))) ++ le 4 (w32 (Z.shiftr (ftype (a_mode (be_attr e))) 12)) ++ be_name e ++ pad.
Proof. eexists. unfold rec_dirent, pad_to, enc_dirent. cbn [concat]. rewrite <- !app_assoc. cbn [app]. reflexivity. Qed.
Lemma w64_range z : 0 <= w64 z < 256 ^ Z.of_nat 8.
Proof. unfold w64. change (256 ^ Z.of_nat 8) with (2 ^ 64). apply Z.mod_pos_bound. lia. Qed.
Lemma w32_range z : 0 <= w32 z < 256 ^ Z.of_nat 4.
Proof. unfold w32. change (256 ^ Z.of_nat 4) with (2 ^ 32). apply Z.mod_pos_bound. lia. Qed.
Lemma kparse_rec fuel e rest : bent_ok e -> kparse (S fuel) (rec_dirent e ++ rest) = want e :: kparse fuel rest.
Proof.
  intros (Hz & Hl & Hi & Ha & Ho). pose proof (rec_dirent_length e) as HL.
  pose proof (align8_ge (24 + Z.of_nat (length (be_name e)))) as HA. unfold dirent_size in HL.
  destruct (rec_dirent_shape e) as [pad Hs].
  assert (Hd : drop (length (rec_dirent e)) (rec_dirent e ++ rest) = rest) by apply drop_app.
  assert (Hlen : length (rec_dirent e ++ rest) = (length (rec_dirent e) + length rest)%nat) by apply app_length.
  assert (Hi' : 0 <= be_ino e < 256 ^ Z.of_nat 8) by (change (256 ^ Z.of_nat 8) with (2 ^ 64); apply Hi).
  assert (Hn' : 0 <= Z.of_nat (length (be_name e)) < 256 ^ Z.of_nat 4) by (change (256 ^ Z.of_nat 4) with (2 ^ 32); lia).
  assert (E : exists b, b = rec_dirent e ++ rest) by eauto. destruct E as [b Eb]. 
  assert (F0 : unle (take 8 b) = be_ino e) by (rewrite Eb, Hs, <- app_assoc; apply unle_take; assumption).
  assert (F1 : unle (take 8 (drop 8 b)) = w64 (be_off e)) by (rewrite Eb, Hs, <- !app_assoc; apply unle_at; [reflexivity|apply w64_range]).
  assert (F2 : unle (take 4 (drop 16 b)) = Z.of_nat (length (be_name e))).
  { rewrite Eb, Hs, <- !app_assoc. rewrite (app_assoc (le 8 _)). apply unle_at; [reflexivity|assumption]. }
  assert (F3 : unle (take 4 (drop 20 b)) = w32 (Z.shiftr (ftype (a_mode (be_attr e))) 12)).
  { rewrite Eb, Hs, <- !app_assoc. rewrite (app_assoc (le 8 _)), (app_assoc (le 8 _ ++ le 8 _)). apply unle_at; [reflexivity|apply w32_range]. }
  assert (F4 : take (length (be_name e)) (drop 24 b) = be_name e).
  { rewrite Eb, Hs, <- !app_assoc. rewrite (app_assoc (le 8 _)), (app_assoc (le 8 _ ++ le 8 _)), (app_assoc ((le 8 _ ++ le 8 _) ++ _)).
    rewrite drop_app_alt by reflexivity. apply take_app. }
  cbn [kparse]. rewrite <- Eb. rewrite F0, F1, F2, F3, Nat2Z.id, F4. rewrite <- HL, Nat2Z.id. rewrite Eb, Hd, Hlen.
  destruct (Nat.ltb_spec (length (rec_dirent e) + length rest) 24) as [?|_]; [lia|].
  destruct (Z.ltb_spec (Z.of_nat (length (rec_dirent e) + length rest)) (Z.of_nat (length (rec_dirent e)))) as [?|_]; [lia|]. reflexivity.
Qed.
Definition enc_fields (l : list (nat * Z)) : bytes := concat (map (fun f => le f.1 f.2) l).
Lemma field_at o w z l1 l2 (rest : bytes) : length (enc_fields l1) = o -> 0 <= z < 256 ^ Z.of_nat w ->
  unle (take w (drop o (enc_fields (l1 ++ (w, z) :: l2) ++ rest))) = z.
Proof.
  intros Hl Hz. unfold enc_fields. rewrite map_app, concat_app. cbn [map concat fst snd]. rewrite <- !app_assoc.
  apply unle_at; assumption.
Qed.
Definition plus_fields (e : bent) : list (nat * Z) :=
  let a := be_attr e in
  [(8%nat, be_ino e); (8%nat, 0); (8%nat, 1); (8%nat, 1); (4%nat, 0); (4%nat, 0);
   (8%nat, be_ino e); (8%nat, a_size a); (8%nat, a_nblocks a); (8%nat, w64 (a_atime a).1); (8%nat, w64 (a_mtime a).1); (8%nat, w64 (a_ctime a).1);
   (4%nat, w32 (a_atime a).2); (4%nat, w32 (a_mtime a).2); (4%nat, w32 (a_ctime a).2); (4%nat, a_mode a); (4%nat, 1); (4%nat, a_uid a); (4%nat, a_gid a); (4%nat, 0); (4%nat, 4096); (4%nat, 0);
   (8%nat, be_ino e); (8%nat, w64 (be_off e)); (4%nat, Z.of_nat (length (be_name e))); (4%nat, w32 (Z.shiftr (ftype (a_mode a)) 12))].
Lemma rec_plus_shape e : exists pad, rec_plus e = enc_fields (plus_fields e) ++ be_name e ++ pad.
Proof.
  assert (H : enc_entry (be_ino e) (be_attr e) ++ enc_dirent (be_ino e) (be_off e) (a_mode (be_attr e)) (be_name e) = enc_fields (plus_fields e) ++ be_name e).
  { unfold enc_entry, enc_attr, enc_dirent, plus_fields, enc_fields. cbn [concat map fst snd]. rewrite <- !app_assoc. cbn [app]. rewrite ?app_nil_r. reflexivity. }
  eexists. unfold rec_plus, pad_to. rewrite H, <- app_assoc. reflexivity.
Qed.
Lemma enc_plus_fields_length e : length (enc_fields (plus_fields e)) = 152%nat.
Proof. reflexivity. Qed.
Lemma kparse_plus_rec fuel e rest : bent_ok e -> kparse_plus (S fuel) (rec_plus e ++ rest) = want_plus e :: kparse_plus fuel rest.
Proof.
  intros (Hz & Hl & Hi & Ha & Ho). pose proof (rec_plus_length e) as HL.
  pose proof (align8_ge (152 + Z.of_nat (length (be_name e)))) as HA. unfold direntplus_size in HL.
  destruct (rec_plus_shape e) as [pad Hs].
  assert (Hd : drop (length (rec_plus e)) (rec_plus e ++ rest) = rest) by apply drop_app.
  assert (Hlen : length (rec_plus e ++ rest) = (length (rec_plus e) + length rest)%nat) by apply app_length.
  assert (Hi' : 0 <= be_ino e < 256 ^ Z.of_nat 8) by (change (256 ^ Z.of_nat 8) with (2 ^ 64); apply Hi).
  assert (Hn' : 0 <= Z.of_nat (length (be_name e)) < 256 ^ Z.of_nat 4) by (change (256 ^ Z.of_nat 4) with (2 ^ 32); lia).
  assert (Ham : 0 <= a_mode (be_attr e) < 256 ^ Z.of_nat 4 /\ 0 <= a_uid (be_attr e) < 256 ^ Z.of_nat 4 /\ 0 <= a_gid (be_attr e) < 256 ^ Z.of_nat 4 /\ 0 <= a_size (be_attr e) < 256 ^ Z.of_nat 8).
  { change (256 ^ Z.of_nat 4) with (2 ^ 32). change (256 ^ Z.of_nat 8) with (2 ^ 64). unfold attrs_ok, u64 in Ha. tauto. }
  destruct Ham as (Hm & Hu & Hg & Hsz).
  assert (E : exists b, b = rec_plus e ++ rest) by eauto. destruct E as [b Eb].
  assert (Eb' : b = enc_fields (plus_fields e) ++ (be_name e ++ pad) ++ rest) by (rewrite Eb, Hs, <- app_assoc; reflexivity).
  assert (FF : forall k w z o, plus_fields e = take k (plus_fields e) ++ (w, z) :: drop (S k) (plus_fields e) -> length (enc_fields (take k (plus_fields e))) = o -> 0 <= z < 256 ^ Z.of_nat w -> unle (take w (drop o b)) = z).
  { intros k w z o Hsp Ho' Hr. rewrite Eb', Hsp. apply field_at; assumption. }
  pose proof (FF 0%nat 8%nat (be_ino e) 0%nat eq_refl eq_refl Hi') as F0.
  pose proof (FF 6%nat 8%nat (be_ino e) 40%nat eq_refl eq_refl Hi') as F1.
  pose proof (FF 7%nat 8%nat _ 48%nat eq_refl eq_refl Hsz) as F2.
  pose proof (FF 10%nat 8%nat _ 72%nat eq_refl eq_refl (w64_range _)) as F3.
  pose proof (FF 15%nat 4%nat _ 100%nat eq_refl eq_refl Hm) as F4.
  pose proof (FF 17%nat 4%nat _ 108%nat eq_refl eq_refl Hu) as F5.
  pose proof (FF 18%nat 4%nat _ 112%nat eq_refl eq_refl Hg) as F6.
  pose proof (FF 22%nat 8%nat _ 128%nat eq_refl eq_refl Hi') as F7.
  pose proof (FF 23%nat 8%nat _ 136%nat eq_refl eq_refl (w64_range _)) as F8.
  pose proof (FF 24%nat 4%nat _ 144%nat eq_refl eq_refl Hn') as F9.
  pose proof (FF 25%nat 4%nat _ 148%nat eq_refl eq_refl (w32_range _)) as F10.
  assert (F11 : take (length (be_name e)) (drop 152 b) = be_name e).
  { rewrite Eb'. rewrite drop_app_alt by (symmetry; apply enc_plus_fields_length). rewrite <- app_assoc. apply take_app. }
  cbn [kparse_plus]. rewrite <- Eb. cbv zeta. rewrite F0, F1, F2, F3, F4, F5, F6, F7, F8, F9, F10, Nat2Z.id, F11. rewrite <- HL, Nat2Z.id. rewrite Eb, Hd, Hlen.
  destruct (Nat.ltb_spec (length (rec_plus e) + length rest) 152) as [?|_]; [lia|].
  destruct (Z.ltb_spec (Z.of_nat (length (rec_plus e) + length rest)) (Z.of_nat (length (rec_plus e)))) as [?|_]; [lia|]. reflexivity.
Qed.

(** Any number of entries can be added without touching memory outside of the buffer; the
    buffer has exactly the sum of the record sizes, and the kernel reads back exactly the
    entries added, in order, with their inode numbers, offsets, types, names (and attributes). *)
Lemma adds_concat l : Forall bent_ok l -> forall buf, adds buf l = Done (buf ++ concat (map rec_dirent l)).
Proof.
  induction 1 as [|e l He _ IH]; intros buf; cbn [adds map concat]; [rewrite app_nil_r; reflexivity|].
  rewrite dirbuf_add_spec by apply He. cbn. rewrite IH, <- app_assoc. reflexivity.
Qed.
Lemma adds_plus_concat l : Forall bent_ok l -> forall buf, adds_plus buf l = Done (buf ++ concat (map rec_plus l)).
Proof.
  induction 1 as [|e l He _ IH]; intros buf; cbn [adds_plus map concat]; [rewrite app_nil_r; reflexivity|].
  rewrite plusbuf_add_spec by apply He. cbn. rewrite IH, <- app_assoc. reflexivity.
Qed.
Lemma kparse_all l : Forall bent_ok l -> forall fuel, (length l <= fuel)%nat -> kparse fuel (concat (map rec_dirent l)) = map want l.
Proof.
  induction 1 as [|e l He _ IH]; intros fuel Hf; cbn [map concat]; [destruct fuel; reflexivity|].
  cbn [length] in Hf. destruct fuel as [|fuel]; [lia|]. rewrite kparse_rec by assumption. f_equal. apply IH. lia.
Qed.
Lemma kparse_plus_all l : Forall bent_ok l -> forall fuel, (length l <= fuel)%nat -> kparse_plus fuel (concat (map rec_plus l)) = map want_plus l.
Proof.
  induction 1 as [|e l He _ IH]; intros fuel Hf; cbn [map concat]; [destruct fuel; reflexivity|].
  cbn [length] in Hf. destruct fuel as [|fuel]; [lia|]. rewrite kparse_plus_rec by assumption. f_equal. apply IH. lia.
Qed.
Lemma recs_length l : Z.of_nat (length (concat (map rec_dirent l))) = total_size dirent_size l /\ (length l <= length (concat (map rec_dirent l)))%nat.
Proof.
  induction l as [|e l [IH1 IH2]]; [split; [reflexivity|cbn; lia]|]. cbn [map concat total_size fold_right length]. rewrite app_length.
  pose proof (rec_dirent_length e) as HL. pose proof (align8_ge (24 + Z.of_nat (length (be_name e)))). unfold total_size in IH1. unfold dirent_size in HL at 1. unfold dirent_size at 1. lia.
Qed.
Lemma recs_plus_length l : Z.of_nat (length (concat (map rec_plus l))) = total_size direntplus_size l /\ (length l <= length (concat (map rec_plus l)))%nat.
Proof.
  induction l as [|e l [IH1 IH2]]; [split; [reflexivity|cbn; lia]|]. cbn [map concat total_size fold_right length]. rewrite app_length.
  pose proof (rec_plus_length e) as HL. pose proof (align8_ge (152 + Z.of_nat (length (be_name e)))). unfold total_size in IH1. unfold direntplus_size in HL at 1. unfold direntplus_size at 1. lia.
Qed.
Theorem C46_dirbuffer : forall l, Forall bent_ok l -> exists b, adds [] l = Done b /\
  Z.of_nat (length b) = total_size dirent_size l /\ kernel_reads b = map want l.
Proof.
  intros l H. eexists. split; [apply adds_concat; assumption|]. rewrite app_nil_l. destruct (recs_length l) as [H1 H2]. split; [assumption|].
  apply kparse_all; assumption.
Qed.
Theorem C46_dirbuffer_plus : forall l, Forall bent_ok l -> exists b, adds_plus [] l = Done b /\
  Z.of_nat (length b) = total_size direntplus_size l /\ kernel_reads_plus b = map want_plus l.
Proof.
  intros l H. eexists. split; [apply adds_plus_concat; assumption|]. rewrite app_nil_l. destruct (recs_plus_length l) as [H1 H2]. split; [assumption|].
  apply kparse_plus_all; assumption.
Qed.
(** rewinding to a length the buffer had before leaves exactly the entries added by then *)
Theorem C46_rewind : forall l1 l2, Forall bent_ok l1 -> Forall bent_ok l2 -> exists b1 b2,
  adds_plus [] l1 = Done b1 /\ adds_plus b1 l2 = Done b2 /\ plusbuf_rewind b2 (length b1) = b1.
Proof.
  intros l1 l2 H1 H2. eexists _, _. split; [apply adds_plus_concat; assumption|]. split; [apply adds_plus_concat; assumption|]. rewrite app_nil_l.
  set (b := concat (map rec_plus l1)). set (c := concat (map rec_plus l2)). unfold plusbuf_rewind, resize.
  destruct (Nat.ltb_spec (length b) (length (b ++ c))) as [Hlt|Hge]; rewrite app_length in *.
  - rewrite take_app. replace (length b - (length b + length c))%nat with 0%nat by lia. cbn [repeat]. apply app_nil_r.
  - destruct c; [apply app_nil_r|cbn [length] in Hge; lia].
Qed.
Print Assumptions C46_dirbuffer.
Print Assumptions C46_dirbuffer_plus.
Print Assumptions C46_rewind.
Definition c46_entries : list bent :=
  [BEnt [97; 98] 7 (Attrs 5 0 1000 100 (1, 2) (3, 4) (5, 6) 33188) 3; BEnt [99] (2 ^ 64 - 1) (Attrs 0 0 0 0 (0, 0) (0, 0) (0, 0) 16877) 9].
Example C46_sample : Forall bent_ok c46_entries /\ exists b, adds [] c46_entries = Done b /\ length b = 64%nat /\
  kernel_reads b = [KEnt 7 3 8 [97; 98]; KEnt (2 ^ 64 - 1) 9 4 [99]].
Proof.
  split. { repeat constructor; cbn; try lia; intuition lia. }
  eexists. split; [vm_compute; reflexivity|]. split; reflexivity.
Qed.
