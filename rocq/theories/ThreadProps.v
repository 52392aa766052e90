(** C56: join and the liveness flag of threads.  C69: start and detach. *)

From Coq Require Import ZArith List Lia Bool.
From Verif Require Import Base Bits SemaphoreModel SemaphoreSpec SemaphoreProofs SemaphoreProofs2 SemaphoreProps ThreadModel ThreadProofs.
Import ListNotations.
Open Scope Z_scope.

(** ** C56 *)
Lemma joiner_join ms : joiner (join_m ms).
Proof. unfold join_m. left. destruct (0 <? ms); eauto. Qed.
(** Without spurious wake-ups, whatever the schedule: once a join has got its permit
    (join(0) returns only then), the function of the thread has finished. *)
Theorem C56_join_after_function_partial : forall others c u t, Forall (Forall joiner) others -> reach false (system others) c ->
  In (u, TryAcquire 1 t, true) (log c) -> In (O, func_done, true) (log c).
Proof. intros others c u t F R IN. destruct (phase_reach _ _ F R) as [A|D]; [exfalso; exact (a_l _ A _ _ IN) | exact D]. Qed.
Print Assumptions C56_join_after_function_partial.
(** join() never returns otherwise. *)
Theorem C56_join_result : forall spurious others c u b, reach spurious (system others) c -> In (u, join_m 0, b) (log c) -> b = true.
Proof.
  intros sp others c u b R IN. change (join_m 0) with (TryAcquire 1 (-1)) in IN. enough (K : (forall t p n x r, nth_error (threads c) t = Some (p, TryAcquire n x :: r) -> x < 0 -> p <> Return false) /\ (forall v n x y, In (v, TryAcquire n x, y) (log c) -> x < 0 -> y = true)).
  { destruct K as (_ & K). apply (K _ _ _ _ IN). lia. }
  clear IN. pose proof R as R0. induction R as [|c c' R IH ST].
  { split; [|intros ? ? ? ? []]. intros t p n x r E _. unfold system, start in E. cbn [threads] in E. rewrite nth_error_map in E. destruct (nth_error _ t); [|discriminate]. injection E as <- _. discriminate. }
  specialize (IH R). destruct IH as (K1 & K2). pose proof (inv_reach _ _ _ _ R) as IV.
  assert (UP : forall ths t q m q' m', nth_error ths t = Some (q, m) -> (forall t p n x r, nth_error ths t = Some (p, TryAcquire n x :: r) -> x < 0 -> p <> Return false) ->
    (forall n x r, m' = TryAcquire n x :: r -> x < 0 -> q' <> Return false) -> forall t0 p n x r, nth_error (upd ths t (q', m')) t0 = Some (p, TryAcquire n x :: r) -> x < 0 -> p <> Return false).
  { clear. intros ths t q m q' m' E K Q t0 p n x r E0. rewrite (nth_upd _ _ _ (q, m)) in E0 by exact E. destruct (Nat.eqb t0 t); [injection E0 as <- ->; eauto | eauto]. }
  destruct ST as [t o r c E | t p l s' p' c E L | t b0 o r c E | t n l u0 p l' p' c E EU W | t n l c E NO | t n l c E | t p p' l c SP E W]; cbn [threads log].
  - split; [|exact K2]. apply (UP _ _ _ _ _ _ E K1). intros n x r0 [= -> ->] X. cbn. destruct (Z.ltb_spec x 0); [discriminate|lia].
  - split; [|exact K2]. apply (UP _ _ _ _ _ _ E K1). intros n x r0 -> X ->. destruct (inv_thread _ IV _ _ _ E) as (_ & _ & B).
    destruct p; cbn in L; unfold lockP, unlockP, lockC, unlockC, store in L; try discriminate;
    try (destruct (pm (sem_of c)); try discriminate); try (destruct (cm (sem_of c)); try discriminate); try (destruct (i <? n0); discriminate); try (destruct (v =? 0); discriminate); try (destruct (n0 <=? permits (sem_of c)); discriminate); try (destruct timedout; discriminate).
    all: cbn in B; destruct B as (t1 & r1 & [= -> -> ->] & B); lia.
  - split.
    + apply (UP _ _ _ _ _ _ E K1). intros. discriminate.
    + intros v n x y IN X. apply in_app_or in IN. destruct IN as [IN|[IN|[]]]; [eauto|]. injection IN as <- -> <-. specialize (K1 _ _ _ _ _ E X). destruct b0; congruence.
  - split; [|exact K2]. apply (UP _ u0 p l').
    + rewrite nth_upd_other; [exact EU|]. intros ->. rewrite E in EU. injection EU as <- <-. discriminate W.
    + apply (UP _ _ _ _ _ _ E K1). intros. discriminate.
    + intros. destruct p; cbn in W; congruence.
  - split; [|exact K2]. apply (UP _ _ _ _ _ _ E K1). intros. discriminate.
  - split; [|exact K2]. apply (UP _ _ _ _ _ _ E K1). intros. discriminate.
  - split; [|exact K2]. apply (UP _ _ _ _ _ _ E K1). intros. destruct p; cbn in W; congruence.
Qed.
Print Assumptions C56_join_result.
(** With one spurious wake-up join returns while the function is running. *)
Theorem C56_spurious_refuted : exists c, reach true (system [[join_m 0]]) c /\ log c = [(O, alive_true, true); (1%nat, join_m 0, true)] /\
  nth_error (threads c) 0 = Some (Idle, [func_done; Release 1; alive_false]).
Proof.
  witness true [Call 0; Ret 0; Call 1; Loc 1; Loc 1; Loc 1; Loc 1; Loc 1; Loc 1; Spurious 1; Loc 1; Loc 1; Loc 1; Loc 1; Loc 1; Loc 1; Loc 1; Ret 1]%nat (system [[join_m 0]]). repeat split.
Qed.
Print Assumptions C56_spurious_refuted.
(** A join that begins after run has ended always returns, if it is the only one. *)
Theorem C56_join_finished_partial : forall c c', reach false (system [[join_m 0]]) c -> threads c = [(Idle, []); (Idle, [join_m 0])] ->
  reach false c c' -> stuck false c' -> finished c'.
Proof.
  intros c c' R T R' ST. assert (P : permits (sem_of c) = 1).
  { rewrite (conservation false 0 [run_m; [join_m 0]] c); [|split; vm_compute; discriminate|exact R]. rewrite T. cbn [threads_effect total fold_right fst snd in_progress].
    enough (LE : log c = [(O, alive_true, true); (O, func_done, true); (O, Release 1, true); (O, alive_false, true)]) by (rewrite LE; reflexivity).
    enough (K : forall c, reach false (system [[join_m 0]]) c -> exists p0 l0 p1 l1, threads c = [(p0, l0); (p1, l1)] /\ (p0 = Return false -> False) /\ (l1 = [join_m 0] -> Forall (fun e => snd e = true) (log c) /\ map fst (log c) ++ map (fun o => (O, o)) l0 = map (fun o => (O, o)) run_m) /\ (l1 = [join_m 0] \/ l1 = []) /\ exists pre, pre ++ l0 = run_m).
    { destruct (K _ R) as (p0 & l0 & p1 & l1 & T2 & _ & L & _). rewrite T in T2. injection T2 as <- <- <- <-. destruct (L eq_refl) as (L1 & L2). rewrite app_nil_r in L2. clear - L1 L2.
      destruct (log c) as [|[[a1 b1] r1] [|[[a2 b2] r2] [|[[a3 b3] r3] [|[[a4 b4] r4] [|]]]]]; try discriminate. cbn in L2. injection L2 as -> -> -> -> -> -> -> ->. rewrite Forall_forall in L1.
      rewrite (L1 (_, _, r1)), (L1 (_, _, r2)), (L1 (_, _, r3)), (L1 (_, _, r4)) by (cbn; tauto). reflexivity. }
    clear. intros c R. induction R as [|c c' R IH ST].
    { exists Idle, run_m, Idle, [join_m 0]. repeat split; auto; try discriminate; [constructor | exists []; reflexivity]. }
    destruct IH as (p0 & l0 & p1 & l1 & T & NF & L & O1 & pre & PRE). pose proof (inv_reach _ _ _ _ R) as IV.
    assert (ONE : forall t q m, nth_error (threads c) t = Some (q, m) -> (t = 0%nat /\ q = p0 /\ m = l0) \/ (t = 1%nat /\ q = p1 /\ m = l1)).
    { intros t q m. rewrite T. destruct t as [|[|[|t]]]; cbn; intros [= <- <-]; auto. }
    destruct ST as [t o r c E | t p l s' p' c E L0 | t b0 o r c E | t n l u0 p l' p' c E EU W | t n l c E NO | t n l c E | t p p' l c SP E W]; cbn [threads log]; rewrite T.
    - destruct (ONE _ _ _ E) as [(-> & <- & <-)|(-> & <- & <-)]; cbn [upd]; do 4 eexists; (split; [reflexivity|]); repeat split; eauto; try apply L; auto; try discriminate.
      destruct o; cbn; try discriminate. destruct (t <? 0); discriminate.
    - destruct (ONE _ _ _ E) as [(-> & -> & ->)|(-> & -> & ->)]; cbn [upd]; do 4 eexists; (split; [reflexivity|]); repeat split; eauto; try apply L; auto. intros ->.
      destruct (inv_thread _ IV _ _ _ E) as (_ & _ & B). clear L. destruct p0; cbn in L0; unfold lockP, unlockP, lockC, unlockC, store in L0; try discriminate;
      try (destruct (pm (sem_of c)); try discriminate); try (destruct (cm (sem_of c)); try discriminate); try (destruct (i <? n); discriminate); try (destruct (v =? 0); discriminate); try (destruct (n <=? permits (sem_of c)); discriminate); try (destruct timedout; discriminate).
      all: cbn in B; destruct B as (t1 & r1 & -> & B); destruct pre as [|? [|? [|? [|? [|]]]]]; discriminate.
    - destruct (ONE _ _ _ E) as [(-> & <- & <-)|(-> & <- & <-)]; cbn [upd]; do 4 eexists; (split; [reflexivity|]).
      + split; [discriminate|]. split; [|split; [exact O1|exists (pre ++ [o]); rewrite <- app_assoc; exact PRE]]. intros X. destruct (L X) as (L1 & L2). split.
        * apply Forall_app. split; [exact L1|]. repeat constructor. destruct b0; [reflexivity | exfalso; apply NF; reflexivity].
        * rewrite map_app, <- app_assoc. exact L2.
      + split; [exact NF|]. destruct O1 as [O1|O1]; [|discriminate]. injection O1 as -> ->. split; [discriminate|]. split; [auto|eauto].
    - assert (X1 : exists l1', threads (mkC (sem_of c) (upd (upd (threads c) t (R78 n, l)) u0 (p', l')) (log c)) = l1') by eauto. clear X1.
      destruct (ONE _ _ _ E) as [(-> & <- & <-)|(-> & <- & <-)], (ONE _ _ _ EU) as [(-> & -> & ->)|(-> & -> & ->)]; cbn [upd]; try discriminate W; do 4 eexists; (split; [reflexivity|]); repeat split; eauto; try apply L; auto; try discriminate.
      intros ->. destruct p0; cbn in W; congruence.
    - destruct (ONE _ _ _ E) as [(-> & <- & <-)|(-> & <- & <-)]; cbn [upd]; do 4 eexists; (split; [reflexivity|]); repeat split; eauto; try apply L; auto; try discriminate.
    - destruct (ONE _ _ _ E) as [(-> & <- & <-)|(-> & <- & <-)]; cbn [upd]; do 4 eexists; (split; [reflexivity|]); repeat split; eauto; try apply L; auto; try discriminate.
    - discriminate. }
  assert (LA : late c) by (split; rewrite T; exists Idle, [join_m 0]; auto).
  pose proof (late_reach _ _ LA R') as LA'. assert (IV : inv c') by (apply (inv_reach false 0 [run_m; [join_m 0]]); eapply reach_trans; eassumption).
  destruct LA' as [(p & l & T' & M)]. unfold finished. rewrite T'. constructor; [reflexivity|]. constructor; [|constructor].
  destruct p as [| | | | | | | | | | | | | | | | | | | | | | | | | | | | | | | | | | | | | | | |]; try contradiction;
  try (exfalso; destruct (progress false c' IV) as (c2 & S2); [|exact (ST _ S2)]; rewrite T'; intros F; inversion F as [|? ? F1 F2]; inversion F2 as [|? ? F3 F4]; subst; destruct F3 as [F3|(? & ? & F3)]; cbn in F3; discriminate F3).
  destruct M as [(-> & _)| ->]; [|reflexivity]. exfalso. destruct (progress false c' IV) as (c2 & S2); [|exact (ST _ S2)]. rewrite T'. intros F. inversion F as [|? ? F1 F2]. inversion F2 as [|? ? F3 F4]. subst. destruct F3 as [F3|(? & ? & F3)]; cbn in F3; discriminate F3.
Qed.
Print Assumptions C56_join_finished_partial.
(** A join that begins before the end of run may wait for ever, though the thread has finished. *)
Theorem C56_join_lost_refuted : exists c, reach false (system [[join_m 0]]) c /\ stuck false c /\
  threads c = [(Idle, []); (A98waiting 1 0, [join_m 0])] /\ alive c = false /\ In (O, func_done, true) (log c).
Proof.
  witness false ([Call 1; Loc 1; Loc 1; Loc 1; Loc 1] ++ [Call 0; Ret 0; Call 0; Ret 0; Call 0; Loc 0; Loc 0; Loc 0; Loc 0; Loc 0; Nobody 0; Loc 0; Ret 0; Call 0; Ret 0] ++ [Loc 1; Loc 1])%nat (system [[join_m 0]]).
  split; [|repeat split; cbn; auto]. apply settled_stuck. constructor; [left; reflexivity|]. constructor; [right; exists 1, 0; reflexivity|constructor].
Qed.
Print Assumptions C56_join_lost_refuted.
(** A second join on a finished thread never returns. *)
Theorem C56_second_join_refuted : exists c, reach false (system [[join_m 0; join_m 0]]) c /\ stuck false c /\
  threads c = [(Idle, []); (A98waiting 1 0, [join_m 0])] /\ alive c = false /\ In (1%nat, join_m 0, true) (log c).
Proof.
  witness false ([Call 0; Ret 0; Call 0; Ret 0; Call 0; Loc 0; Loc 0; Loc 0; Loc 0; Loc 0; Nobody 0; Loc 0; Ret 0; Call 0; Ret 0] ++ [Call 1; Loc 1; Loc 1; Loc 1; Loc 1; Loc 1; Loc 1; Loc 1; Loc 1; Loc 1; Ret 1] ++ [Call 1; Loc 1; Loc 1; Loc 1; Loc 1; Loc 1; Loc 1])%nat (system [[join_m 0; join_m 0]]).
  split; [|repeat split; cbn; auto 10]. apply settled_stuck. constructor; [left; reflexivity|]. constructor; [right; exists 1, 0; reflexivity|constructor].
Qed.
Print Assumptions C56_second_join_refuted.
(** join may return before isAlive says so. *)
Theorem C56_alive_refuted : exists c, reach false (system [[join_m 0]]) c /\ In (1%nat, join_m 0, true) (log c) /\ alive c = true.
Proof.
  witness false ([Call 0; Ret 0; Call 0; Ret 0; Call 0; Loc 0; Loc 0; Loc 0; Loc 0; Loc 0; Nobody 0; Loc 0] ++ [Call 1; Loc 1; Loc 1; Loc 1; Loc 1; Loc 1; Loc 1; Loc 1; Loc 1; Loc 1; Ret 1])%nat (system [[join_m 0]]). split; [cbn; auto 10|reflexivity].
Qed.
Print Assumptions C56_alive_refuted.
(** Timed joins always return. *)
Theorem C56_timed_join : forall spurious others c, Forall (Forall (fun o => exists ms, 0 < ms /\ o = join_m ms)) others ->
  reach spurious (system others) c -> stuck spurious c -> finished c.
Proof.
  intros sp others c F R ST. assert (FF : Forall (Forall (fun o => match o with TryAcquire _ t => 0 <= t | _ => True end)) (run_m :: others)).
  { constructor; [repeat constructor|]. eapply Forall_impl; [|exact F]. intros l H. eapply Forall_impl; [|exact H]. intros o (ms & P & ->). unfold join_m. destruct (Z.ltb_spec 0 ms); cbn; lia. }
  exact (SemaphoreProps.C55_try_never_stuck _ _ _ _ FF R ST).
Qed.
Print Assumptions C56_timed_join.
Example C56_ex : exists c, reach false (system [[join_m 0]]) c /\ threads c = [(Idle, []); (Idle, [join_m 0])].
Proof. witness false [Call 0; Ret 0; Call 0; Ret 0; Call 0; Loc 0; Loc 0; Loc 0; Loc 0; Loc 0; Nobody 0; Loc 0; Ret 0; Call 0; Ret 0]%nat (system [[join_m 0]]). reflexivity. Qed.
Example C56_ex2 : exists c, reach false (system [[join_m 0]; [join_m 5]]) c /\ In (1%nat, join_m 0, true) (log c) /\ Forall (Forall joiner) [[join_m 0]; [join_m 5]].
Proof.
  witness false ([Call 0; Ret 0; Call 0; Ret 0; Call 0; Loc 0; Loc 0; Loc 0; Loc 0; Loc 0; Nobody 0; Loc 0] ++ [Call 1; Loc 1; Loc 1; Loc 1; Loc 1; Loc 1; Loc 1; Loc 1; Loc 1; Loc 1; Ret 1])%nat (system [[join_m 0]; [join_m 5]]).
  split; [cbn; auto 10|]. repeat (constructor; [constructor; [apply joiner_join|constructor]|]). constructor.
Qed.

(** ** C69 *)
(** The first start launches the function, once. *)
Theorem C69_first_start : forall f, start_m (new_thread f) = Done (mkO f f false false (if f then 1%nat else 0%nat)).
Proof. intros []; reflexivity. Qed.
Print Assumptions C69_first_start.
(** While the thread says that it is alive, start changes nothing. *)
Theorem C69_start_alive : forall o, al o = true -> start_m o = Done o.
Proof. intros o A. unfold start_m. rewrite A, andb_false_r. reflexivity. Qed.
Print Assumptions C69_start_alive.
(** A second start of a thread that has not been detached kills the process, unless the flag is set:
    before run has set it, and after run has ended. *)
Theorem C69_second_start_refuted : forall o, life o -> (0 < launched o)%nat -> det o = false -> al o = false -> start_m o = Terminate.
Proof.
  intros o L. assert (K : (0 < launched o)%nat -> det o = false -> has_func o = true /\ joinable o = true).
  { induction L as [f|o o' L IH E|o o' L IH E|b o L IH P]; cbn; intros N D.
    - lia.
    - unfold start_m in E. destruct (has_func o && negb (al o)) eqn:C; [|injection E as <-; auto]. destruct (joinable o); [discriminate|]. injection E as <-. cbn. apply andb_prop in C. tauto.
    - unfold detach_m in E. destruct (det o) eqn:D2; [discriminate|]. destruct (joinable o); [|discriminate]. injection E as <-. discriminate D.
    - auto. }
  intros N D A. destruct (K N D) as (F & J). unfold start_m. rewrite F, J, A. reflexivity.
Qed.
Print Assumptions C69_second_start_refuted.
(** After detach, start launches the function again. *)
Theorem C69_restart_refuted : exists o, life o /\ launched o = 2%nat.
Proof.
  exists (mkO true true false true 2). split; [|reflexivity]. apply (life_start (mkO true false false true 1)); [|reflexivity]. apply (life_detach (mkO true true false false 1)); [|reflexivity]. apply (life_start (new_thread true)); [constructor|reflexivity].
Qed.
Print Assumptions C69_restart_refuted.
(** But not without it: at most one thread of execution. *)
Theorem C69_once_partial : forall o, life o -> det o = false -> (launched o <= 1)%nat.
Proof.
  intros o L. enough (K : (det o = false -> (launched o <= 1)%nat) /\ (det o = false -> joinable o = false -> launched o = 0%nat)) by apply K.
  induction L as [f|o o' L IH E|o o' L IH E|b o L IH P]; cbn.
  - split; intros; [lia|reflexivity].
  - unfold start_m in E. destruct (has_func o && negb (al o)); [|injection E as <-; exact IH]. destruct (joinable o); [discriminate|]. injection E as <-. destruct IH as (_ & IH). cbn. split; [intros D; rewrite (IH D eq_refl); lia | discriminate].
  - unfold detach_m in E. destruct (det o) eqn:D; [discriminate|]. destruct (joinable o); [|discriminate]. injection E as <-. split; discriminate.
  - exact IH.
Qed.
Print Assumptions C69_once_partial.
(** detach: IllegalArgumentException the second time; std::system_error before any start. *)
Theorem C69_detach : forall o o', detach_m o = Done o' -> det o' = true /\ joinable o' = false /\ detach_m o' = Raise IllegalArgumentException /\ launched o' = launched o.
Proof. intros o o' E. unfold detach_m in E. destruct (det o); [discriminate|]. destruct (joinable o); [|discriminate]. injection E as <-. repeat split. Qed.
Print Assumptions C69_detach.
Theorem C69_detach_new_refuted : forall f, detach_m (new_thread f) = SystemError.
Proof. reflexivity. Qed.
Print Assumptions C69_detach_new_refuted.
Example C69_ex : life (mkO true true false false 1) /\ life (mkO true true true false 1).
Proof. assert (A : life (mkO true true false false 1)) by (apply (life_start (new_thread true)); [constructor|reflexivity]). split; [exact A|]. apply (life_run true _ A). cbn. lia. Qed.
