(** C54, C55: semaphores. *)

From Coq Require Import ZArith List Lia Bool.
From Verif Require Import Base Bits SemaphoreModel SemaphoreSpec SemaphoreProofs SemaphoreProofs2.
Import ListNotations.
Open Scope Z_scope.
Local Notation acquire n := (TryAcquire n (-1)).

(** ** C54 *)
(** At every moment, under every interleaving, the permits are the initial ones plus what
    the calls that returned and the calls in progress have added. *)
Theorem C54_conservation : forall spurious v programs c, is_int v -> reach spurious (start v programs) c ->
  permits (sem_of c) = wrap 32 (v + log_effect (log c) + threads_effect (threads c)).
Proof. exact conservation. Qed.
Print Assumptions C54_conservation.
(** When all calls have returned. *)
Theorem C54_conservation_finished : forall spurious v programs c, is_int v -> reach spurious (start v programs) c -> finished c ->
  permits (sem_of c) = wrap 32 (v + log_effect (log c)).
Proof.
  intros sp v programs c V R F. rewrite (conservation _ _ _ _ V R). replace (threads_effect (threads c)) with 0; [f_equal; lia|].
  symmetry. unfold threads_effect, total. unfold finished in F. induction F as [|t l -> F IH]; [reflexivity|]. cbn [fold_right fst snd in_progress]. rewrite IH. reflexivity.
Qed.
Print Assumptions C54_conservation_finished.
(** Only one thread is ever between lock and unlock of either mutex, and it works on the current value. *)
Theorem C54_mutual_exclusion : forall spurious v programs c t u p l q m, reach spurious (start v programs) c ->
  nth_error (threads c) t = Some (p, l) -> nth_error (threads c) u = Some (q, m) ->
  hasP p = true -> hasP q = true -> t = u.
Proof.
  intros sp v programs c t u p l q m R E1 E2 H1 H2. destruct (inv_reach _ _ _ _ R) as [IP _ _].
  assert (X : pm (sem_of c) = Some t) by (apply IP; eauto). assert (Y : pm (sem_of c) = Some u) by (apply IP; eauto). congruence.
Qed.
Print Assumptions C54_mutual_exclusion.
(** Without acquire, the permits never become negative. *)
Theorem C54_nonnegative_partial : forall spurious v programs c, 0 <= v -> Forall (Forall try_only) programs -> v + total released programs <= int_max ->
  reach spurious (start v programs) c -> 0 <= permits (sem_of c).
Proof. intros sp v programs c V F B R. apply (nonneg sp v programs c V F B R). Qed.
Print Assumptions C54_nonnegative_partial.
(** Nor with one acquiring thread, the others releasing, if the condition variable has no spurious wake-ups. *)
Theorem C54_one_acquirer_partial : forall v first rest c, 0 <= v -> ok_ops first -> Forall releases_only rest -> v + total released (first :: rest) <= int_max ->
  reach false (start v (first :: rest)) c -> 0 <= permits (sem_of c).
Proof. intros v first rest c V F R B H. exact (one_pos _ _ (one_reach _ _ _ _ V F R B H)). Qed.
Print Assumptions C54_one_acquirer_partial.
(** Two threads acquire, one permit: both succeed. *)
Theorem C54_negative_refuted : exists c, reach false (start 1 [[acquire 1]; [acquire 1]]) c /\ finished c /\
  log c = [(0%nat, acquire 1, true); (1%nat, acquire 1, true)] /\ permits (sem_of c) = -1.
Proof.
  witness false ([Call 0; Loc 0; Loc 0; Loc 0; Loc 0] ++ [Call 1; Loc 1; Loc 1; Loc 1; Loc 1] ++ [Loc 0; Loc 0; Loc 0; Loc 0; Loc 0; Ret 0] ++ [Loc 1; Loc 1; Loc 1; Loc 1; Loc 1; Ret 1])%nat (start 1 [[acquire 1]; [acquire 1]]). repeat split. repeat constructor.
Qed.
Print Assumptions C54_negative_refuted.
(** One acquiring thread against tryAcquire. *)
Theorem C54_negative_try_refuted : exists c, reach false (start 1 [[acquire 1]; [TryAcquire 1 0]]) c /\ finished c /\
  log c = [(1%nat, TryAcquire 1 0, true); (0%nat, acquire 1, true)] /\ permits (sem_of c) = -1.
Proof.
  witness false ([Call 0; Loc 0; Loc 0; Loc 0; Loc 0] ++ [Call 1; Loc 1; Loc 1; Loc 1; Loc 1; Loc 1; Ret 1] ++ [Loc 0; Loc 0; Loc 0; Loc 0; Loc 0; Ret 0])%nat (start 1 [[acquire 1]; [TryAcquire 1 0]]). repeat split. repeat constructor.
Qed.
Print Assumptions C54_negative_try_refuted.
(** A spurious wake-up: acquire takes a permit that does not exist. *)
Theorem C54_spurious_refuted : exists c, reach true (start 0 [[acquire 1]]) c /\ finished c /\ log c = [(0%nat, acquire 1, true)] /\ permits (sem_of c) = -1.
Proof.
  witness true [Call 0; Loc 0; Loc 0; Loc 0; Loc 0; Loc 0; Loc 0; Spurious 0; Loc 0; Loc 0; Loc 0; Loc 0; Loc 0; Loc 0; Loc 0; Ret 0]%nat (start 0 [[acquire 1]]). repeat split. repeat constructor.
Qed.
Print Assumptions C54_spurious_refuted.
Example C54_ex : exists c, reach false (start 0 [[Release 3]; [TryAcquire 2 0]]) c /\ finished c /\ permits (sem_of c) = 1 /\ Forall (Forall try_only) [[Release 3]; [TryAcquire 2 0]].
Proof.
  witness false ([Call 0; Loc 0; Loc 0; Loc 0; Loc 0; Loc 0; Nobody 0; Loc 0; Ret 0] ++ [Call 1; Loc 1; Loc 1; Loc 1; Loc 1; Loc 1; Ret 1])%nat (start 0 [[Release 3]; [TryAcquire 2 0]]). split; [repeat constructor|]. split; [reflexivity|]. repeat constructor; cbn; lia.
Qed.

(** ** C55 *)
(** The mutexes never deadlock: while some thread is neither finished nor in the wait of acquire, some thread can go on. *)
Theorem C55_progress_partial : forall spurious v programs c, reach spurious (start v programs) c ->
  ~ Forall (fun t => t = (Idle, []) \/ exists n i, fst t = A98waiting n i) (threads c) -> exists c', step spurious c c'.
Proof. intros sp v programs c R N. exact (progress sp c (inv_reach _ _ _ _ R) N). Qed.
Print Assumptions C55_progress_partial.
(** So programs without acquire never get stuck before their end. *)
Theorem C55_try_never_stuck : forall spurious v programs c, Forall (Forall (fun o => match o with TryAcquire _ t => 0 <= t | _ => True end)) programs ->
  reach spurious (start v programs) c -> stuck spurious c -> finished c.
Proof.
  intros sp v programs c F R ST. assert (FO : Forall (fun t => Forall (fun o => match o with TryAcquire _ t => 0 <= t | _ => True end) (snd t)) (threads c)).
  { clear ST. induction R as [|c c' R IH STE]; [cbn [start threads]; rewrite Forall_map; exact F | eapply step_ops; eassumption]. }
  pose proof (inv_reach _ _ _ _ R) as I. assert (A : Forall settled (threads c)).
  { destruct (Forall_Exists_dec settled) with (l := threads c) as [Y|Y]; [|exact Y|].
    - intros [p l]. destruct p; try (right; intros [X|(n0 & i0 & X)]; cbn in X; congruence); [destruct l; [left; left; reflexivity | right; intros [X|(n0 & i0 & X)]; cbn in X; congruence] | left; right; eexists; eexists; reflexivity].
    - exfalso. destruct (progress sp c I) as (c' & S1); [|exact (ST _ S1)]. intros Z1. rewrite Exists_exists in Y. rewrite Forall_forall in Z1. destruct Y as (x & IN & NX). exact (NX (Z1 _ IN)). }
  unfold finished. apply Forall_forall. intros [p l] IN. rewrite Forall_forall in A, FO. destruct (A _ IN) as [X|(n & i & X)]; [exact X|]. cbn in X. subst p. exfalso.
  pose proof (FO _ IN) as FX. cbn [snd] in FX. apply In_nth_error in IN. destruct IN as (t & E). destruct (inv_thread _ I _ _ _ E) as (_ & _ & t0 & r & -> & T & _). inversion FX; subst. cbn in *. lia.
Qed.
Print Assumptions C55_try_never_stuck.
(** A release between the test and the wait is lost: the permit is there, the thread waits for ever. *)
Theorem C55_lost_wakeup_refuted : exists c, reach false (start 0 [[acquire 1]; [Release 1]]) c /\ stuck false c /\ permits (sem_of c) = 1 /\
  threads c = [(A98waiting 1 0, [acquire 1]); (Idle, [])].
Proof.
  witness false ([Call 0; Loc 0; Loc 0; Loc 0; Loc 0] ++ [Call 1; Loc 1; Loc 1; Loc 1; Loc 1; Loc 1; Nobody 1; Loc 1; Ret 1] ++ [Loc 0; Loc 0])%nat (start 0 [[acquire 1]; [Release 1]]). split; [|split; reflexivity]. apply settled_stuck. constructor; [right; exists 1, 0; reflexivity|]. constructor; [left; reflexivity|constructor].
Qed.
Print Assumptions C55_lost_wakeup_refuted.
(** release(2) wakes up only one of two waiting threads. *)
Theorem C55_notify_one_refuted : exists c, reach false (start 0 [[acquire 1]; [acquire 1]; [Release 2]]) c /\ stuck false c /\ permits (sem_of c) = 1 /\
  threads c = [(Idle, []); (A98waiting 1 0, [acquire 1]); (Idle, [])].
Proof.
  witness false ([Call 0; Loc 0; Loc 0; Loc 0; Loc 0; Loc 0; Loc 0] ++ [Call 1; Loc 1; Loc 1; Loc 1; Loc 1; Loc 1; Loc 1] ++ [Call 2; Loc 2; Loc 2; Loc 2; Loc 2; Loc 2; Notify 2 0; Loc 2; Ret 2] ++ [Loc 0; Loc 0; Loc 0; Loc 0; Loc 0; Loc 0; Loc 0; Ret 0])%nat (start 0 [[acquire 1]; [acquire 1]; [Release 2]]). split; [|split; reflexivity]. apply settled_stuck. constructor; [left; reflexivity|]. constructor; [right; exists 1, 0; reflexivity|]. constructor; [left; reflexivity|constructor].
Qed.
Print Assumptions C55_notify_one_refuted.
(** In every reachable state in which nothing can happen, the threads left are all waiting in acquire. *)
Theorem C55_stuck : forall v programs c, reach false (start v programs) c ->
  (stuck false c <-> Forall (fun t => t = (Idle, []) \/ exists n i, fst t = A98waiting n i) (threads c)).
Proof.
  intros v programs c R. split; [|apply settled_stuck]. intros ST. destruct (Forall_Exists_dec settled) with (l := threads c) as [Y|Y]; [|exact Y|].
  - intros [p l]. destruct p; try (right; intros [X|(n0 & i0 & X)]; cbn in X; congruence); [destruct l; [left; left; reflexivity | right; intros [X|(n0 & i0 & X)]; cbn in X; congruence] | left; right; eexists; eexists; reflexivity].
  - exfalso. destruct (progress false c (inv_reach _ _ _ _ R)) as (c' & S1); [|exact (ST _ S1)]. intros Z1. rewrite Exists_exists in Y. rewrite Forall_forall in Z1. destruct Y as (x & IN & NX). exact (NX (Z1 _ IN)).
Qed.
Print Assumptions C55_stuck.
