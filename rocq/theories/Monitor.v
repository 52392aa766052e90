(** Objects whose methods run under one mutex.

    A method body is a tree of atomic accesses to the shared state: [Act f]
    performs one access and continues with the rest of the body.  Threads
    execute lists of calls; the scheduler picks any thread before every
    access.  A call is locked (it holds the mutex from its first to its last
    access, as with std::lock_guard) or not.  This file does not model a
    file of /repo. *)

From Coq Require Import ZArith List Lia Bool.
From Verif Require Import Base.
Import ListNotations.

Section Monitor.
Context {S O A : Type}.

Inductive body : Type :=
| Ret (a : A)
| Act (f : S -> outcome (S * body)).

(** The body alone, without interference. *)
Fixpoint run_body (b : body) (s : S) : outcome (S * A) :=
  match b with
  | Ret a => Ok (s, a)
  | Act f => match f s with
             | Ok (s', b') => run_body b' s'
             | Throw e => Throw e
             | UB u => UB u
             | OutOfFuel => OutOfFuel
             end
  end.

Variable code : O -> body.
Variable locked : O -> bool.

Inductive pc : Type := Idle | Inside (o : O) (b : body).
(** A thread: what it is doing and the calls it has still to make. *)
Definition thread : Type := pc * list O.
(** [log] lists the finished calls, in the order in which they finished. *)
Record config := mkC { owner : option nat; shared : S; threads : list thread; log : list (nat * O * A) }.

Fixpoint set_thread (n : nat) (t : thread) (l : list thread) : list thread :=
  match l, n with
  | [], _ => []
  | _ :: r, Datatypes.O => t :: r
  | x :: r, Datatypes.S k => x :: set_thread k t r
  end.

Inductive step : config -> config -> Prop :=
| step_lock n o rest c : nth_error (threads c) n = Some (Idle, o :: rest) -> locked o = true -> owner c = None ->
    step c (mkC (Some n) (shared c) (set_thread n (Inside o (code o), rest) (threads c)) (log c))
| step_enter n o rest c : nth_error (threads c) n = Some (Idle, o :: rest) -> locked o = false ->
    step c (mkC (owner c) (shared c) (set_thread n (Inside o (code o), rest) (threads c)) (log c))
| step_act n o f rest c s b : nth_error (threads c) n = Some (Inside o (Act f), rest) -> f (shared c) = Ok (s, b) ->
    step c (mkC (owner c) s (set_thread n (Inside o b, rest) (threads c)) (log c))
| step_ret n o a rest c : nth_error (threads c) n = Some (Inside o (Ret a), rest) ->
    step c (mkC (if locked o then None else owner c) (shared c) (set_thread n (Idle, rest) (threads c)) (log c ++ [(n, o, a)])).
(** An access that is undefined behaviour (or escapes with an exception). *)
Definition wrong (c : config) (r : outcome (S * A)) : Prop :=
  exists n o f rest, nth_error (threads c) n = Some (Inside o (Act f), rest) /\
    match f (shared c) with Ok _ => False | Throw e => r = Throw e | UB u => r = UB u | OutOfFuel => r = OutOfFuel end.

Inductive reach (c0 : config) : config -> Prop :=
| reach_0 : reach c0 c0
| reach_step c c' : reach c0 c -> step c c' -> reach c0 c'.

Definition start (s : S) (programs : list (list O)) : config := mkC None s (map (fun p => (Idle, p)) programs) [].
Definition finished (c : config) : Prop := Forall (fun t => t = (Idle, [])) (threads c).

(** One thread making the calls of a list, one after the other. *)
Fixpoint seq_run (s : S) (l : list O) : outcome (S * list A) :=
  match l with
  | [] => Ok (s, [])
  | o :: r => let* ' (s1, a) := run_body (code o) s in let* ' (s2, as_) := seq_run s1 r in Ok (s2, a :: as_)
  end.
Definition calls (l : list (nat * O * A)) : list O := map (fun e => snd (fst e)) l.
Definition answers (l : list (nat * O * A)) : list A := map snd l.
(** The calls of thread [n]. *)
Definition of_thread (n : nat) (l : list (nat * O * A)) : list O := calls (filter (fun e => Nat.eqb (fst (fst e)) n) l).

(** ** Proofs *)
Lemma nth_set n t : forall l k, nth_error (set_thread n t l) k = if Nat.eqb n k then match nth_error l n with Some _ => Some t | None => None end else nth_error l k.
Proof using. revert t. induction n as [|n IH]; intros t [|x l] [|k]; cbn; auto. destruct (Nat.eqb n k); auto. Qed.

Lemma seq_run_app l1 : forall s s1 a1 l2, seq_run s l1 = Ok (s1, a1) -> seq_run s (l1 ++ l2) = let* ' (s2, a2) := seq_run s1 l2 in Ok (s2, a1 ++ a2).
Proof using.
  induction l1 as [|o l1 IH]; intros s s1 a1 l2 E; cbn [seq_run app] in *.
  - injection E as <- <-. destruct (seq_run s l2) as [(s2 & a2)| | |]; auto.
  - destruct (run_body (code o) s) as [(s' & a)| | |]; cbn [bind] in *; try discriminate. destruct (seq_run s' l1) as [(s2 & a2)| | |] eqn:E2; cbn [bind] in *; try discriminate. injection E as <- <-.
    rewrite (IH _ _ _ l2 E2). destruct (seq_run s2 l2) as [(s3 & a3)| | |]; auto.
Qed.

(** The invariant: the shared state is what the finished calls, one after the
    other, leave; or, inside a critical section, what remains of the running
    body completes the sequential execution. *)
Definition inv (s0 : S) (programs : list (list O)) (c : config) : Prop :=
  (forall n, match nth_error (threads c) n, nth_error programs n with
             | Some (Idle, rest), Some p => p = of_thread n (log c) ++ rest /\ owner c <> Some n
             | Some (Inside o b, rest), Some p => p = of_thread n (log c) ++ o :: rest /\ owner c = Some n
             | None, None => True
             | _, _ => False
             end) /\
  (exists s1, seq_run s0 (calls (log c)) = Ok (s1, answers (log c)) /\
     match owner c with
     | None => shared c = s1
     | Some n => exists o b rest, nth_error (threads c) n = Some (Inside o b, rest) /\ run_body b (shared c) = run_body (code o) s1
     end).

Lemma of_thread_app n l e : of_thread n (l ++ [e]) = of_thread n l ++ (if Nat.eqb (fst (fst e)) n then [snd (fst e)] else []).
Proof using. unfold of_thread, calls. rewrite filter_app, map_app. f_equal. cbn. destruct (Nat.eqb _ n); auto. Qed.

Lemma inv_start s0 programs : inv s0 programs (start s0 programs).
Proof using.
  split; cbn.
  - intros n. rewrite nth_error_map. destruct (nth_error programs n); cbn; auto. split; auto. discriminate.
  - exists s0. auto.
Qed.

Lemma inv_step s0 programs c c' : Forall (Forall (fun o => locked o = true)) programs -> inv s0 programs c -> step c c' -> inv s0 programs c'.
Proof using.
  intros LK (I1 & s1 & I2 & I3) ST.
  assert (LOCK : forall n o b rest, nth_error (threads c) n = Some (Inside o b, rest) -> locked o = true).
  { intros n o b rest E. specialize (I1 n). rewrite E in I1. destruct (nth_error programs n) as [p|] eqn:P; [|contradiction]. destruct I1 as (I1 & _). apply nth_error_In in P. rewrite Forall_forall in LK. specialize (LK p P). rewrite Forall_forall in LK. apply LK. rewrite I1. apply in_app_iff. right. left. auto. }
  destruct ST as [n o rest c E L OW|n o rest c E L|n o f rest c s b E F|n o a rest c E].
  - split.
    + intros k. cbn. rewrite nth_set. specialize (I1 k) as Ik. destruct (Nat.eqb_spec n k) as [->|NK].
      * rewrite E in *. destruct (nth_error programs k); auto. destruct Ik. auto.
      * destruct (nth_error (threads c) k) as [([|o' b'] & r')|]; auto; destruct (nth_error programs k); auto; destruct Ik as (X & Y); split; auto; try congruence.
    + exists s1. split; auto. cbn. rewrite OW in I3. exists o, (code o), rest. rewrite nth_set, Nat.eqb_refl, E. subst. auto.
  - exfalso. specialize (I1 n). rewrite E in I1. destruct (nth_error programs n) as [p|] eqn:P; [|contradiction]. destruct I1 as (I1 & _). apply nth_error_In in P. rewrite Forall_forall in LK. specialize (LK p P). rewrite Forall_forall in LK.
    assert (locked o = true) by (apply LK; rewrite I1; apply in_app_iff; right; left; auto). congruence.
  - assert (OW : owner c = Some n). { specialize (I1 n). rewrite E in I1. destruct (nth_error programs n); [tauto|contradiction]. }
    split.
    + intros k. cbn. rewrite nth_set. specialize (I1 k) as Ik. destruct (Nat.eqb_spec n k) as [->|NK]; [rewrite E in *; destruct (nth_error programs k); auto|auto].
    + exists s1. split; auto. cbn. rewrite OW in *. destruct I3 as (o' & b' & r' & E' & RB). rewrite E in E'. injection E' as <- <- <-. exists o, b, rest. rewrite nth_set, Nat.eqb_refl, E. split; auto. rewrite <- RB. cbn. rewrite F. auto.
  - assert (OW : owner c = Some n). { specialize (I1 n). rewrite E in I1. destruct (nth_error programs n); [tauto|contradiction]. }
    rewrite (LOCK n o (Ret a) rest E). rewrite OW in I3. destruct I3 as (o' & b' & r' & E' & RB). rewrite E in E'. injection E' as <- <- <-. split.
    + intros k. cbn [threads log owner]. rewrite nth_set, of_thread_app. cbn [fst snd]. specialize (I1 k) as Ik. destruct (Nat.eqb_spec n k) as [->|NK].
      * rewrite E in *. destruct (nth_error programs k) as [p|]; auto. destruct Ik as (X & _). split; [|discriminate]. rewrite <- app_assoc. auto.
      * rewrite app_nil_r. destruct (nth_error (threads c) k) as [([|o' b'] & r')|] eqn:EK; auto; destruct (nth_error programs k); auto; destruct Ik as (X & Y); split; auto; [discriminate|congruence].
    + exists (shared c). cbn [log shared owner]. split; auto. unfold calls, answers. rewrite !map_app. rewrite (seq_run_app _ _ _ _ _ I2). cbn [map seq_run fst snd]. cbn in RB. rewrite <- RB. auto.
Qed.

Theorem monitor_inv s0 programs c : Forall (Forall (fun o => locked o = true)) programs -> reach (start s0 programs) c -> inv s0 programs c.
Proof using. intros L R. induction R; [apply inv_start|eapply inv_step; eauto]. Qed.

Lemma set_thread_length n t : forall l, length (set_thread n t l) = length l.
Proof using. induction n as [|n IH]; intros [|x l]; cbn; auto. Qed.
Lemma log_range s0 programs c : reach (start s0 programs) c -> length (threads c) = length programs /\ forall n o a, List.In (n, o, a) (log c) -> (n < length programs)%nat.
Proof using.
  intros R. induction R as [|c c' R (L & IH) ST]; [split; [apply map_length|contradiction]|].
  destruct ST; cbn; rewrite set_thread_length; split; auto. intros k o' a' X. apply in_app_iff in X as [X|[X|[]]]; eauto. injection X as <- <- <-. rewrite <- L. apply nth_error_Some. congruence.
Qed.
(** A finished execution is a sequential one: some interleaving of the
    programs, each in its own order, executed one call after the other, gives
    the same final state and the same answers. *)
Theorem monitor_linear s0 programs c : Forall (Forall (fun o => locked o = true)) programs -> reach (start s0 programs) c -> finished c ->
  seq_run s0 (calls (log c)) = Ok (shared c, answers (log c)) /\ (forall n p, nth_error programs n = Some p -> of_thread n (log c) = p).
Proof using.
  intros L R F. destruct (monitor_inv s0 programs c L R) as (I1 & s1 & I2 & I3). unfold finished in F. rewrite Forall_forall in F. split.
  - destruct (owner c) as [n|]; [|congruence]. destruct I3 as (o & b & rest & E & _). apply nth_error_In in E. apply F in E. discriminate.
  - intros n p P. specialize (I1 n). rewrite P in I1. destruct (nth_error (threads c) n) as [([|o b] & rest)|] eqn:E; try contradiction; apply nth_error_In in E; apply F in E; [|discriminate]. injection E as ->. destruct I1 as (-> & _). now rewrite app_nil_r.
Qed.

(** Undefined behaviour under some schedule is undefined behaviour of a
    sequential execution of some of the calls. *)
Theorem monitor_wrong s0 programs c r : Forall (Forall (fun o => locked o = true)) programs -> reach (start s0 programs) c -> wrong c r ->
  exists o, seq_run s0 (calls (log c) ++ [o]) = (let* _ := r in OutOfFuel) /\ (exists n p, nth_error programs n = Some p /\ exists rest, p = of_thread n (log c) ++ o :: rest).
Proof using.
  intros L R (n & o & f & rest & E & W). destruct (monitor_inv s0 programs c L R) as (I1 & s1 & I2 & I3). specialize (I1 n). rewrite E in I1. destruct (nth_error programs n) as [p|] eqn:P; [|contradiction]. destruct I1 as (I1 & OW). rewrite OW in I3. destruct I3 as (o' & b & r' & E' & RB). rewrite E in E'. injection E' as <- <- <-.
  exists o. split; [|exists n, p; split; auto; exists rest; auto]. rewrite (seq_run_app _ _ _ _ _ I2). cbn [seq_run]. rewrite <- RB. cbn [run_body]. destruct (f (shared c)) as [(x & y)| | |]; [contradiction| | |]; subst r; auto.
Qed.

(** No deadlock: an unfinished execution can go on (or goes wrong). *)
Theorem monitor_progress s0 programs c : Forall (Forall (fun o => locked o = true)) programs -> reach (start s0 programs) c -> ~ finished c -> (exists c', step c c') \/ (exists r, wrong c r).
Proof using.
  intros L R NF. destruct (monitor_inv s0 programs c L R) as (I1 & s1 & I2 & I3).
  assert (GO : forall n o b rest, nth_error (threads c) n = Some (Inside o b, rest) -> (exists c', step c c') \/ (exists r, wrong c r)).
  { intros n o b rest E. destruct b as [a|f]; [left; eexists; eapply step_ret; eauto|]. destruct (f (shared c)) as [(s & b)|e|u|] eqn:F.
    - left. eexists. eapply step_act; eauto.
    - right. exists (Throw e). exists n, o, f, rest. rewrite F. auto.
    - right. exists (UB u). exists n, o, f, rest. rewrite F. auto.
    - right. exists OutOfFuel. exists n, o, f, rest. rewrite F. auto. }
  destruct (owner c) as [n|] eqn:OW; [destruct I3 as (o & b & rest & E & _); eauto|].
  assert (X : Exists (fun t => t <> (Idle, [])) (threads c)). { clear - NF. unfold finished in NF. induction (threads c) as [|(p & r) l IH]; [exfalso; apply NF; constructor|]. destruct p as [|o b]; [destruct r as [|o r]; [right; apply IH; intros F; apply NF; constructor; auto|left; discriminate]|left; discriminate]. }
  apply Exists_exists in X as ((p & r) & IN & NE). apply In_nth_error in IN as (n & E). destruct p as [|o b]; [|eauto]. destruct r as [|o r]; [congruence|].
  destruct (locked o) eqn:LO; left; eexists; [eapply step_lock; eauto|eapply step_enter; eauto].
Qed.

Lemma finished_dec c : finished c \/ ~ finished c.
Proof using. unfold finished. destruct (Forall_dec (fun t : thread => t = (Idle, []))) with (l := threads c) as [F|F]; auto. intros ([|o b] & [|x r]); auto; right; discriminate. Qed.

(** The step of a chosen thread, and a chosen schedule. *)
Definition exec1 (n : nat) (c : config) : option config :=
  match nth_error (threads c) n with
  | Some (Idle, o :: rest) =>
    if locked o then match owner c with None => Some (mkC (Some n) (shared c) (set_thread n (Inside o (code o), rest) (threads c)) (log c)) | Some _ => None end
    else Some (mkC (owner c) (shared c) (set_thread n (Inside o (code o), rest) (threads c)) (log c))
  | Some (Inside o (Act f), rest) => match f (shared c) with Ok (s, b) => Some (mkC (owner c) s (set_thread n (Inside o b, rest) (threads c)) (log c)) | _ => None end
  | Some (Inside o (Ret a), rest) => Some (mkC (if locked o then None else owner c) (shared c) (set_thread n (Idle, rest) (threads c)) (log c ++ [(n, o, a)]))
  | _ => None
  end.
Fixpoint exec (schedule : list nat) (c : config) : option config :=
  match schedule with
  | [] => Some c
  | n :: r => match exec1 n c with Some c' => exec r c' | None => None end
  end.
Lemma exec1_step n c c' : exec1 n c = Some c' -> step c c'.
Proof using.
  unfold exec1. destruct (nth_error (threads c) n) as [([|o [a|f]] & rest)|] eqn:E; try discriminate.
  - destruct rest as [|o rest]; [discriminate|]. destruct (locked o) eqn:L; [destruct (owner c) eqn:W; [discriminate|]|]; intros X; injection X as <-; [eapply step_lock|eapply step_enter]; eauto.
  - intros X; injection X as <-. eapply step_ret; eauto.
  - destruct (f (shared c)) as [(s & b)| | |] eqn:F; try discriminate. intros X; injection X as <-. eapply step_act; eauto.
Qed.
Lemma exec_reach schedule : forall c0 c c', reach c0 c -> exec schedule c = Some c' -> reach c0 c'.
Proof using.
  induction schedule as [|n r IH]; intros c0 c c' R E; cbn in E; [injection E as <-; auto|]. destruct (exec1 n c) as [c1|] eqn:X; [|discriminate]. eapply IH; [|eauto]. eapply reach_step; eauto. eapply exec1_step; eauto.
Qed.
End Monitor.
Arguments body : clear implicits.
Arguments config : clear implicits.
