(** Property theorems C44: a StringBuffer shared by several threads. *)

From Coq Require Import ZArith List Lia Bool String.
From Verif Require Import Base Bits TextLemmas CppText TextSpec CMem StringModel StringBuilderSpec StringBuilderModel StringBuilderProofs StringBufferModel StringBufferProofs StringBufferProps Monitor StringBufferThreadsModel.
Import ListNotations.
Open Scope Z_scope.
Local Notation length := List.length.

(** [code] describes how every method performs its work by accesses to the
    shared object; alone, it is the method of StringBufferModel. *)
Definition implements (m : cpp) (code : sop -> body sb sans) : Prop := forall o s, run_body (code o) s = b_step m s o.

Lemma seq_b_run m code s ops : implements m code -> seq_run code s ops = b_run m s ops.
Proof. intros I. revert s. induction ops as [|o ops IH]; intros s; auto. cbn [seq_run b_run]. rewrite (I o s). destruct (b_step m s o) as [(s1 & a)| | |]; auto. cbn [bind]. now rewrite IH. Qed.

(** The calls that take the mutex: all but ensureCapacity and length. *)
Definition all_guarded (programs : list (list sop)) : Prop := Forall (Forall (fun o => forall n, o <> SEnsureCapacity n /\ o <> SLength)) programs.
Lemma all_guarded_ok programs : all_guarded programs -> Forall (Forall (fun o => guarded o = true)) programs.
Proof. apply Forall_impl. intros p. apply Forall_impl. intros o H. destruct o; auto; exfalso; [destruct (H n)|destruct (H 0)]; congruence. Qed.

(** Any number of threads, any programs of mutex-protected calls, any
    schedule, any way the methods access memory: when all threads are done,
    the calls took effect one after the other in an order that keeps the
    program order of every thread. *)
Theorem C44_atomic_partial m code s programs c : implements m code -> all_guarded programs ->
  reach code guarded (start s programs) c -> finished c ->
  exists order, b_run m s (calls order) = Ok (shared c, answers order) /\
    forall n p, nth_error programs n = Some p -> of_thread n order = p.
Proof.
  intros I G R F. exists (log c). destruct (monitor_linear code guarded s programs c (all_guarded_ok _ G) R F) as (E & P). split; auto. now rewrite <- (seq_b_run m code s _ I).
Qed.
Print Assumptions C44_atomic_partial.

(** No schedule deadlocks, and a schedule goes wrong only where a sequential
    order of some of the calls does. *)
Theorem C44_progress_partial m code s programs c : implements m code -> all_guarded programs -> reach code guarded (start s programs) c ->
  finished c \/ (exists c', step code guarded c c') \/
  (exists (order : list (nat * sop * sans)) n p o rest r, wrong c r /\ nth_error programs n = Some p /\ p = of_thread n order ++ o :: rest /\ b_run m s (calls order ++ [o]) = (let* _ := r in OutOfFuel)).
Proof.
  intros I G R. pose proof (all_guarded_ok _ G) as L.
  destruct (finished_dec c) as [F|F]; auto. right. destruct (monitor_progress code guarded s programs c L R F) as [X|(r & W)]; auto. right.
  destruct (monitor_wrong code guarded s programs c r L R W) as (o & E & n & p & P & rest & EP). exists (log c), n, p, o, rest, r. split; auto. split; auto. split; auto. now rewrite <- (seq_b_run m code s _ I).
Qed.
Print Assumptions C44_progress_partial.

(** ** The access-by-access description of append, ensureCapacity and setCharAt is one such [code]. *)
Lemma sadd_nothrow m a b e : sadd m 32 a b <> Throw e.
Proof. unfold sadd, sres. destruct (in_sb _ _); [|destruct m]; discriminate. Qed.
Lemma smul_nothrow m a b e : smul m 32 a b <> Throw e.
Proof. unfold smul, sres. destruct (in_sb _ _); [|destruct m]; discriminate. Qed.
Lemma grow_nothrow m f : forall c n e, grow_loop m f c n <> Throw e.
Proof.
  induction f as [|f IH]; intros c n e; cbn [grow_loop]; [discriminate|].
  pose proof (smul_nothrow m c 2) as X. destruct (smul m 32 c 2) as [d|?|?|]; cbn [bind]; try discriminate; [|intros _; eapply X; reflexivity].
  pose proof (sadd_nothrow m d 2) as Y. destruct (sadd m 32 d 2) as [d'|?|?|]; cbn [bind]; try discriminate; [|intros _; eapply Y; reflexivity].
  destruct (d' <? n); [apply IH|discriminate].
Qed.
Lemma fine_ensure_run m n k s : run_body (fine_ensureCapacity m n k) s = match b_ensureCapacity m s n with Ok s1 => run_body k s1 | Throw e => Throw e | UB u => UB u | OutOfFuel => OutOfFuel end.
Proof.
  unfold fine_ensureCapacity, b_ensureCapacity, access. cbn [run_body]. destruct (n <=? 0); auto. destruct (n <=? scap s); auto. cbn [run_body].
  pose proof (grow_nothrow m 40 (scap s) n) as G. destruct (grow_loop m 40 (scap s) n) as [c|e|u|]; auto. exfalso. eapply G; reflexivity.
Qed.
Lemma ensure_nothrow m s n e : b_ensureCapacity m s n <> Throw e.
Proof. unfold b_ensureCapacity. destruct (n <=? 0); [discriminate|]. destruct (n <=? scap s); [discriminate|]. pose proof (grow_nothrow m 40 (scap s) n) as G. destruct (grow_loop m 40 (scap s) n) as [c|e'|u|]; try discriminate. intros _. eapply G; reflexivity. Qed.
Lemma fine_appendArray_run m t off len s : run_body (fine_appendArray m t off len) s = match (let* s' := b_appendArray m s t off len in Ok (s', SUnit)) with Throw _ => Ok (s, SBad) | r => r end.
Proof.
  unfold fine_appendArray, b_appendArray. unfold access at 1. cbn [run_body]. destruct ((off <? 0) || (len <? 0)); auto.
  pose proof (sadd_nothrow m off len) as X. destruct (sadd m 32 off len) as [stop|e|u|]; cbn [bind]; auto. destruct (zlen t <? stop); auto. cbn [bind].
  destruct (sadd m 32 (slen s) len) as [n|e|u|]; cbn [bind]; auto. rewrite fine_ensure_run.
  pose proof (ensure_nothrow m s n) as Y. destruct (b_ensureCapacity m s n) as [s1|e|u|]; cbn [bind]; auto; [|exfalso; eapply Y; reflexivity].
  unfold access. cbn [run_body]. unfold mem_in. destruct (_ && _); cbn [bind]; auto. cbn [run_body slen].
  pose proof (sadd_nothrow m (slen s1) len) as W. destruct (sadd m 32 (slen s1) len) as [n1|e|u|]; cbn [bind]; auto. exfalso. eapply W; reflexivity.
Qed.
Theorem C44_accesses m : implements m (fine m).
Proof.
  intros o s. destruct o; try (cbn [fine run_body]; destruct (b_step m s _) as [(s' & a)|e|u|] eqn:E; cbn [bind]; auto; fail).
  - apply fine_appendArray_run.
  - apply fine_appendArray_run.
  - apply fine_appendArray_run.
  - cbn [fine]. unfold fine_setCharAt, access, b_step, b_setCharAt. cbn [run_body]. destruct ((i <? 0) || (slen s <=? i)); auto. cbn [run_body]. unfold mset. destruct (znth (buf s) i); auto.
  - cbn [fine]. rewrite fine_ensure_run. unfold b_step. destruct (b_ensureCapacity m s n) as [s1|e|u|] eqn:E; cbn [bind]; auto. exfalso. eapply ensure_nothrow; eauto.
Qed.
Print Assumptions C44_accesses.

(** ** Appending threads: no text is lost, duplicated or broken up. *)
Fixpoint texts (ops : list sop) : str := match ops with SAppend t :: r => t ++ texts r | _ :: r => texts r | [] => [] end.
Definition only_appends (ops : list sop) : Prop := Forall (fun o => exists t, o = SAppend t) ops.
Lemma run_appends m ops : forall s w j, rep s w j -> only_appends ops -> zlen w + zlen (texts ops) <= blim ->
  exists s' j' as_, b_run m s ops = Ok (s', as_) /\ rep s' (w ++ texts ops) j'.
Proof.
  induction ops as [|o ops IH]; intros s w j R OA L.
  - exists s, j, []. cbn [texts]. rewrite app_nil_r. auto.
  - inversion OA as [|? ? (t & ->) OA']; subst. cbn [texts b_run] in *. rewrite zlen_app in L. pose proof (zlen_nonneg (texts ops)).
    destruct (rep_append m s w j t R ltac:(lia)) as (s1 & j1 & E & R1 & _). unfold b_step. rewrite E. cbn [bind].
    destruct (IH s1 (w ++ t) j1 R1 OA') as (s2 & j2 & as_ & E2 & R2); [rewrite zlen_app; lia|]. rewrite E2. cbn [bind]. rewrite <- app_assoc in R2. eauto.
Qed.

Definition total (f : nat -> Z) (k : nat) : Z := fold_right Z.add 0 (map f (seq 0 k)).
Lemma total_ext f g k : (forall n, (n < k)%nat -> f n = g n) -> total f k = total g k.
Proof. intros H. unfold total. f_equal. apply map_ext_in. intros n X. apply in_seq in X. apply H. lia. Qed.
Lemma total_le f g k : (forall n, (n < k)%nat -> f n <= g n) -> total f k <= total g k.
Proof.
  unfold total. intros H. assert (X : forall l, (forall n, In n l -> f n <= g n) -> fold_right Z.add 0 (map f l) <= fold_right Z.add 0 (map g l)).
  { induction l as [|x l IH]; cbn; intros Y; [lia|]. pose proof (Y x (or_introl eq_refl)). specialize (IH (fun n X => Y n (or_intror X))). lia. }
  apply X. intros n I. apply in_seq in I. apply H. lia.
Qed.
Lemma total_bump f k n d : (n < k)%nat -> total (fun i => if Nat.eqb n i then d + f i else f i) k = d + total f k.
Proof.
  unfold total. intros H. assert (X : forall l, NoDup l -> fold_right Z.add 0 (map (fun i => if Nat.eqb n i then d + f i else f i) l) = (if in_dec Nat.eq_dec n l then d else 0) + fold_right Z.add 0 (map f l)).
  { induction l as [|x l IH]; intros ND; auto. inversion ND as [|? ? NI ND']; subst. cbn [map fold_right]. rewrite (IH ND'). destruct (Nat.eqb_spec n x) as [->|NE].
    - destruct (in_dec Nat.eq_dec x l); [contradiction|]. destruct (in_dec Nat.eq_dec x (x :: l)) as [|Q]; [lia|exfalso; apply Q; left; auto].
    - destruct (in_dec Nat.eq_dec n l) as [I|I]; destruct (in_dec Nat.eq_dec n (x :: l)) as [J|J]; try lia; exfalso; [apply J; right; auto|destruct J as [->|J]; congruence]. }
  rewrite X by apply seq_NoDup. destruct (in_dec Nat.eq_dec n (seq 0 k)) as [I|I]; auto. exfalso. apply I. apply in_seq. lia.
Qed.
Lemma texts_app a b : texts (a ++ b) = texts a ++ texts b.
Proof. induction a as [|o a IH]; auto. destruct o; cbn [texts app]; rewrite IH; auto. apply app_assoc. Qed.
Lemma texts_total (l : list (nat * sop * sans)) k : (forall n o a, In (n, o, a) l -> (n < k)%nat) -> zlen (texts (calls l)) = total (fun n => zlen (texts (of_thread n l))) k.
Proof.
  induction l as [|((n & o) & a) l IH]; intros H.
  - cbn. unfold total. induction (seq 0 k) as [|x y IHs]; auto.
  - unfold calls. cbn [map fst snd]. fold (calls l). change (o :: calls l) with ([o] ++ calls l). rewrite texts_app, zlen_app. rewrite IH by (intros; eapply H; right; eauto).
    rewrite <- (total_bump _ k n) by (eapply H; left; eauto). apply total_ext. intros i _. unfold of_thread. cbn [filter fst]. destruct (Nat.eqb n i); auto. unfold calls. cbn [map fst snd].
    change (o :: map (fun e => snd (fst e)) (filter (fun e => Nat.eqb (fst (fst e)) i) l)) with ([o] ++ calls (filter (fun e => Nat.eqb (fst (fst e)) i) l)). now rewrite texts_app, zlen_app.
Qed.
Lemma total_programs (f : list sop -> Z) programs : fold_right Z.add 0 (map f programs) = total (fun n => f (nth n programs [])) (length programs).
Proof.
  unfold total. f_equal. rewrite <- (map_map (fun n => nth n programs []) f). f_equal.
  apply nth_ext with (d := []) (d' := []); [now rewrite map_length, seq_length|]. intros n H. rewrite (nth_indep (map _ _) [] (nth 0 programs [])) by (rewrite map_length, seq_length; auto).
  change (nth 0 programs []) with ((fun n => nth n programs []) 0%nat). rewrite map_nth, seq_nth; auto.
Qed.
Lemma prefix_bound (l : list (nat * sop * sans)) programs : (forall n o a, In (n, o, a) l -> (n < length programs)%nat) -> (forall n p, nth_error programs n = Some p -> exists rest, p = of_thread n l ++ rest) ->
  zlen (texts (calls l)) <= fold_right Z.add 0 (map (fun p => zlen (texts p)) programs).
Proof.
  intros R P. rewrite (texts_total l (length programs) R), total_programs. apply total_le. intros n H. destruct (P n (nth n programs [])) as (rest & E); [now apply nth_error_nth'|]. rewrite E at 1. rewrite texts_app, zlen_app. pose proof (zlen_nonneg (texts rest)). lia.
Qed.
Lemma appends_order (l : list (nat * sop * sans)) programs : Forall only_appends programs -> (forall n o a, In (n, o, a) l -> (n < length programs)%nat) -> (forall n p, nth_error programs n = Some p -> exists rest, p = of_thread n l ++ rest) -> only_appends (calls l).
Proof.
  intros OA R P. apply Forall_forall. intros o I. apply in_map_iff in I as (((n & o') & a) & <- & I). cbn. specialize (R n o' a I) as K. destruct (nth_error programs n) as [p|] eqn:E; [|apply nth_error_None in E; lia].
  destruct (P n p E) as (rest & EP). apply nth_error_In in E. rewrite Forall_forall in OA. specialize (OA p E). unfold only_appends in OA. rewrite Forall_forall in OA. apply OA. rewrite EP. apply in_app_iff. left. unfold of_thread, calls. apply in_map_iff. exists (n, o', a). split; auto. apply filter_In. split; auto. cbn. apply Nat.eqb_refl.
Qed.

(** No schedule of appending threads goes wrong; in the end the buffer holds
    the old text and the texts of all threads in an order that keeps the
    program order of every thread. *)
Theorem C44_appends m code s w j programs c : implements m code -> rep s w j -> Forall only_appends programs ->
  zlen w + fold_right Z.add 0 (map (fun p => zlen (texts p)) programs) <= blim ->
  reach code guarded (start s programs) c ->
  (forall r, ~ wrong c r) /\
  (finished c -> exists (order : list (nat * sop * sans)) j', (forall n p, nth_error programs n = Some p -> of_thread n order = p) /\ (forall n o a, In (n, o, a) order -> (n < length programs)%nat) /\ rep (shared c) (w ++ texts (calls order)) j').
Proof.
  intros I R OA L RE.
  assert (G : Forall (Forall (fun o => guarded o = true)) programs). { eapply Forall_impl; [|exact OA]. intros p. apply Forall_impl. intros o (t & ->). auto. }
  destruct (log_range code guarded s programs c RE) as (TL & RG). split.
  - intros r W. destruct (monitor_wrong code guarded s programs c r G RE W) as (o & E & n & p & P & rest & EP).
    destruct (monitor_inv code guarded s programs c G RE) as (I1 & _).
    rewrite (seq_b_run m code s _ I) in E. set (l := log c ++ [(n, o, SUnit)]).
    assert (EC : calls (log c) ++ [o] = calls l) by (unfold l, calls; rewrite map_app; auto). rewrite EC in E.
    assert (RG' : forall n o a, In (n, o, a) l -> (n < length programs)%nat). { intros n' o' a' X. apply in_app_iff in X as [X|[X|[]]]; eauto. injection X as <- <- <-. apply nth_error_Some. congruence. }
    assert (PR : forall k p', nth_error programs k = Some p' -> exists rest', p' = of_thread k l ++ rest').
    { intros k p' PK. unfold l. rewrite of_thread_app. cbn [fst snd]. destruct (Nat.eqb_spec n k) as [<-|NK].
      - rewrite P in PK. injection PK as <-. exists rest. rewrite <- app_assoc. auto.
      - rewrite app_nil_r. specialize (I1 k). rewrite PK in I1. destruct (nth_error (threads c) k) as [([|o' b'] & r')|]; [| |contradiction]; destruct I1 as (-> & _); eauto. }
    pose proof (prefix_bound l programs RG' PR) as B. destruct (run_appends m (calls l) s w j R (appends_order l programs OA RG' PR)) as (s' & j' & as_ & E2 & _); [lia|]. rewrite E2 in E. destruct r; discriminate.
  - intros F. destruct (monitor_linear code guarded s programs c G RE F) as (E & P). rewrite (seq_b_run m code s _ I) in E.
    assert (PR : forall k p', nth_error programs k = Some p' -> exists rest', p' = of_thread k (log c) ++ rest') by (intros k p' PK; exists []; rewrite app_nil_r; symmetry; auto).
    pose proof (prefix_bound _ programs RG PR) as B. destruct (run_appends m (calls (log c)) s w j R (appends_order _ programs OA RG PR)) as (s' & j' & as_ & E2 & R2); [lia|]. rewrite E2 in E. injection E as E _. exists (log c), j'. rewrite <- E. auto.
Qed.
Print Assumptions C44_appends.

(** ensureCapacity does not take the mutex.  One thread appends "x" while
    another asks for capacity: in both sequential orders the buffer then
    holds "x", but under this schedule the character is lost. *)
Theorem C44_ensureCapacity_refuted m :
  let s := mkSB (c_calloc 2) 0 2 in
  let programs := [[SEnsureCapacity 3]; [SAppend (T "x")]] in
  (exists c, reach (fine m) guarded (start s programs) c /\ finished c /\ slen (shared c) = 1 /\ znth (buf (shared c)) 0 = Some (Some 0)) /\
  (forall ops, ops = [SEnsureCapacity 3; SAppend (T "x")] \/ ops = [SAppend (T "x"); SEnsureCapacity 3] -> exists s' a, b_run m s ops = Ok (s', a) /\ slen s' = 1 /\ znth (buf s') 0 = Some (Some 120)).
Proof.
  cbv zeta. split.
  - destruct (exec (fine m) guarded (repeat 0 4 ++ repeat 1 8 ++ repeat 0 2)%nat (start (mkSB (c_calloc 2) 0 2) [[SEnsureCapacity 3]; [SAppend (T "x")]])) as [c|] eqn:E; [|destruct m; vm_compute in E; discriminate].
    exists c. split; [eapply exec_reach; [apply reach_0|exact E]|]. destruct m; vm_compute in E; injection E as <-; (split; [repeat constructor|split; reflexivity]).
  - intros ops [-> | ->]; destruct m; (eexists _, _; split; [vm_compute; reflexivity|split; reflexivity]).
Qed.
Print Assumptions C44_ensureCapacity_refuted.

(** The hypotheses are met: a new buffer, two appending threads, a schedule that finishes. *)
Example C44_example : exists c, reach (fine HW) guarded (start (mkSB (c_calloc 2) 0 2) [[SAppend (T "ab"); SAppend (T "c")]; [SAppend (T "xyz")]]) c /\ finished c /\
  rep (mkSB (c_calloc 2) 0 2) [] (c_calloc 2) /\ firstn 6 (buf (shared c)) = map Some (T "abxyzc").
Proof.
  destruct (exec (fine HW) guarded (repeat 0 8 ++ repeat 1 11 ++ repeat 0 8)%nat (start (mkSB (c_calloc 2) 0 2) [[SAppend (T "ab"); SAppend (T "c")]; [SAppend (T "xyz")]])) as [c|] eqn:E; [|vm_compute in E; discriminate].
  exists c. split; [eapply exec_reach; [apply reach_0|exact E]|]. vm_compute in E; injection E as <-. split; [repeat constructor|split; [|reflexivity]]. split; [reflexivity|]. split; [reflexivity|]. split; [reflexivity|vm_compute; discriminate].
Qed.
