(** C85: the blocking queue. *)

From Coq Require Import ZArith List Bool Lia Permutation.
From Verif Require Import Base Bits TextLemmas SemaphoreSpec SemaphoreProofs LwSemModel LwSemSpec LwSemProofs LwSemProps BlockingQueueModel BlockingQueueSpec BlockingQueueProofs.
Import ListNotations.
Open Scope Z_scope.

Section Any.
Variables (A : Type) (n : nat) (a : qsys A).
(* any calls of fewer than 2^31 threads that enqueue fewer than 2^63 items in all *)
Hypotheses (N : Z.of_nat n < 2 ^ 31) (R : qreach n a) (BD : zlen (concat (accepted a)) < 2 ^ 63).
Let I : qinv n a := qreach_inv n a N R BD.
Let BS : 0 + signalled (sem a) < 2 ^ 63.
Proof. destruct I as [_ _ _ _ SG _ _]. rewrite SG. lia. Qed.

Theorem C85_nothing_lost_or_duplicated : Permutation (put_in a) (bag a ++ taken_out a).
Proof. now destruct I. Qed.

Lemma take_nonneg t : In t (qthreads a) -> 0 <= to_take t.
Proof.
  intros H. destruct I as [_ _ _ LK _ _ _]. destruct t as [c q]. apply In_nth_error in H. destruct H as [i E]. destruct (LK i c q E) as (k & p & F & L). destruct q; cbn; try lia.
  destruct L as (_ & how & _ & _ & L). exact L.
Qed.
Lemma totals_nonneg {X} (f : X -> Z) l : (forall x, In x l -> 0 <= f x) -> 0 <= total f l.
Proof. unfold total. induction l as [|x l IH]; intros H; [cbn; lia|]. cbn [fold_right]. specialize (IH (fun y Y => H y (or_intror Y))). specialize (H x (or_introl eq_refl)). lia. Qed.
Lemma total_ge {X} (f : X -> Z) l x : (forall x, In x l -> 0 <= f x) -> In x l -> f x <= total f l.
Proof.
  unfold total. induction l as [|y l IH]; intros H K; [destruct K|]. cbn [fold_right]. pose proof (totals_nonneg f l (fun z Y => H z (or_intror Y))) as T. unfold total in T. destruct K as [->|K]; [lia|].
  specialize (IH (fun z Y => H z (or_intror Y)) K). specialize (H y (or_introl eq_refl)). lia.
Qed.
(** every permit a dequeuing thread holds stands for an item in the queue *)
Lemma books : zlen (bag a) = total (fun t => zlen (being_put t)) (qthreads a) + (signalled (sem a) - granted (sem a)) + all_to_take a.
Proof.
  pose proof (zlen_perm _ _ C85_nothing_lost_or_duplicated) as P. unfold put_in, taken_out in P. rewrite !zlen_app, !zlen_flat_map in P. destruct I as [_ _ _ _ SG GR _]. change (all_to_take a) with (total to_take (qthreads a)). lia.
Qed.
Theorem C85_items_to_take_are_there : all_to_take a + all_in_hand (sem a) <= zlen (bag a).
Proof.
  pose proof books as B. destruct I as [RS _ _ _ _ _ _]. pose proof (C83_never_more_than_given 0 n (sem a) ltac:(lia) N RS BS) as G.
  pose proof (totals_nonneg (fun t => zlen (being_put t)) (qthreads a) ltac:(intros; apply zlen_nonneg)). lia.
Qed.
(** so the loop around try_dequeue always has an item to find *)
Theorem C85_taker_can_go i c m got : qthread_at a i c (Take m got) -> m <> 0 -> exists b1 x b2, bag a = b1 ++ x :: b2 /\ qstep a (mkQ (sem a) (b1 ++ b2) (upd (qthreads a) i (c, Take (m - 1) (got ++ [x]))) (accepted a) (delivered a)).
Proof.
  intros E M. assert (L : 0 < zlen (bag a)).
  { pose proof C85_items_to_take_are_there as T. pose proof (total_ge to_take (qthreads a) _ take_nonneg (nth_error_In _ _ E)) as G. cbn [to_take snd] in G. change (all_to_take a) with (total to_take (qthreads a)) in T.
    pose proof (take_nonneg _ (nth_error_In _ _ E)) as P. cbn [to_take snd] in P. destruct I as [RS _ _ _ _ _ _]. pose proof (reach_inv 0 n (sem a) ltac:(lia) N RS BS) as SI. pose proof (inv_sums _ _ _ SI) as (_ & _ & _ & H). change (all_in_hand (sem a)) with (sum holds (threads (sem a))) in T. lia. }
  destruct (bag a) as [|x b2] eqn:B; [cbn in L; lia|]. exists [], x, b2. split; [reflexivity|]. destruct a as [s b ts ac de]. cbn [sem bag qthreads accepted delivered] in *. subst b. apply (q_take A s [] x b2 ts ac de i c m got); auto.
Qed.

Theorem C85_results i how got : qthread_at a i (Dequeue how) (QDone got) -> result_ok how (zlen got).
Proof. intros E. destruct I as [_ _ _ LK _ _ _]. destruct (LK i _ _ E) as (k & p & F & L). apply L. Qed.

Lemma sem_thread i k p : thread_at (sem a) i k p -> exists c q, qthread_at a i c q /\ link c q k p.
Proof.
  intros E. destruct I as [_ LEN SLEN LK _ _ _]. unfold thread_at, qthread_at in *. destruct (nth_error (qthreads a) i) as [[c q]|] eqn:F.
  - exists c, q. split; [reflexivity|]. destruct (LK i c q F) as (k' & p' & G & L). rewrite E in G. injection G as -> ->. exact L.
  - apply nth_error_None in F. assert (i < length (threads (sem a)))%nat by (apply nth_error_Some; congruence). lia.
Qed.
Lemma enqueue_quiet : no_enqueue a -> no_signal (sem a) /\ total (fun t => zlen (being_put t)) (qthreads a) = 0.
Proof.
  intros Q. split.
  - intros i k p E [m ->]. destruct (sem_thread i _ p E) as (c & q & F & L). destruct q; cbn [link] in L.
    1,2,3,6: destruct L as [L _]; destruct p; try discriminate; eauto.
    + destruct L as (_ & xs & -> & _). destruct (Q i _ _ F ltac:(eauto)) as [got D]. discriminate.
    + destruct L as (_ & -> & V). cbn in V. tauto.
  - assert (G : forall t, In t (qthreads a) -> zlen (being_put t) = 0).
    { intros [c q] H. apply In_nth_error in H. destruct H as [i E]. destruct c as [|xs|how]; try reflexivity. destruct (Q i _ q E ltac:(eauto)) as [got ->]. reflexivity. }
    unfold total. clear - G. induction (qthreads a) as [|t ts IH]; [reflexivity|]. cbn [fold_right]. rewrite (G t (or_introl eq_refl)), IH; [reflexivity|]. intros u U. apply G. now right.
Qed.
(** a consumer that sleeps while there are items nobody else is about to take can go on *)
Theorem C85_consumer_wakes i c p : thread_at (sem a) i c p -> asleep p -> no_enqueue a -> all_to_take a + all_in_hand (sem a) < zlen (bag a) -> exists b, qstep a b.
Proof.
  intros E S0 Q L. destruct (enqueue_quiet Q) as [NS Z0]. pose proof books as B. pose proof I as [RS _ _ _ _ _ _].
  destruct (C83_sleeper_can_go 0 n (sem a) ltac:(lia) N RS BS i c p E S0 NS ltac:(lia)) as (b & q & T & _ & _ & _). destruct (sem_thread i c p E) as (qc & qq & F & LN).
  assert (BZ : busy qq) by (destruct qq; cbn [link] in LN; unfold busy; auto; destruct LN as [LN _]; destruct S0 as (k & max & [-> | ->]); discriminate).
  destruct a as [s bg ts ac de]. cbn [sem bag qthreads accepted delivered] in *. destruct s as [cn se th g r]. cbn [count sema threads granted signalled] in *.
  assert (M : moves i (mkSys cn se th g r) (mkSys cn (se - 1) (upd th i (c, q)) (g + returned q) r) q) by (econstructor; eauto).
  destruct (is_done q) eqn:D; [|eexists; eapply q_sem; eauto]. apply is_done_ex in D. destruct D as [res ->]. destruct BZ as [-> | ->].
  - eexists. eapply q_signalled; eauto.
  - destruct LN as (_ & -> & V). assert (RES : exists k max, Done res = got_one k max) by (destruct S0 as (k & max & [-> | ->]); inversion T; subst; eauto).
    assert (res = 1). { destruct RES as (k & max & RES). destruct k; cbn in RES; [congruence|]. destruct (1 <? max); congruence. } subst res. eexists. eapply q_acquired; [exact F| |exact M]. intros _. lia.
Qed.
(** when nothing can go on, the unfinished calls wait for items without timeout and the queue is empty *)
Theorem C85_stuck_only_when_empty i c q : qstuck a -> qthread_at a i c q -> (forall got, q <> QDone got) ->
  (exists how, c = Dequeue how /\ (how = Wait Never \/ exists max, how = WaitMany max Never)) /\ bag a = [] /\ Permutation (concat (accepted a)) (concat (delivered a)).
Proof.
  intros ST E ND. pose proof I as [RS LEN SLEN LK SG GR IT].
  assert (B : forall j d r, qthread_at a j d r -> (exists got, r = QDone got) \/ (busy r)).
  { intros j d r F. destruct (LK j d r F) as (k & p & G & L). destruct r as [got|  |rest| | |m got]; [eauto| | |right; now left|right; now right|]; exfalso.
    - destruct L as (_ & xs & -> & _). destruct a as [s bg ts ac de]. eapply ST. eapply q_refused. exact F.
    - destruct L as (D & xs & -> & LX). destruct rest as [|x rest]; [|destruct a as [s bg ts ac de]; eapply ST; eapply q_put; exact F]. apply is_done_ex in D. destruct D as [res ->].
      destruct a as [s bg ts ac de]. cbn [sem] in *. destruct s as [cn se th g0 r0]. eapply ST. eapply q_signal; [exact F|]. econstructor; [exact G|]. rewrite app_nil_r in *. pose proof (zlen_nonneg xs). cbn [valid]. split; [lia|]. rewrite ?app_nil_r in LX. rewrite ?app_nil_r. unfold long_max in LX. lia.
    - destruct (Z.eq_dec m 0) as [->|M].
      + destruct a as [s bg ts ac de]. eapply ST. eapply q_taken. exact F.
      + destruct (C85_taker_can_go j d m got F M) as (b1 & x & b2 & _ & S0). exact (ST _ S0). }
  assert (SS : stuck (sem a)).
  { intros s' S0. assert (exists b, qstep a b) as [b S1]; [|exact (ST b S1)]. pose proof sem_thread as SEMT. destruct a as [s bg ts ac de]. cbn [sem] in *. destruct S0 as [cn se th g0 r0 j k p c' s' p' F T].
    assert (M : moves j (mkSys cn se th g0 r0) (mkSys c' s' (upd th j (k, p')) (g0 + returned p') r0) p') by (econstructor; eauto).
    destruct (SEMT j k p F) as (qc & qq & F2 & LN). assert (BZ : busy qq). { destruct (B j qc qq F2) as [[got ->]|BZ]; [|exact BZ]. destruct LN as [D _]. apply is_done_ex in D. destruct D as [res ->]. inversion T. }
    destruct (is_done p') eqn:D; [|eexists; eapply q_sem; eauto]. apply is_done_ex in D. destruct D as [res ->]. destruct BZ as [-> | ->]; [eexists; eapply q_signalled; eauto|]. destruct LN as (_ & -> & V).
    destruct (Z.eq_dec res 0) as [->|NZ]; [|eexists; eapply q_acquired; eauto].
    assert (DEC : k = Wait Never \/ k <> Wait Never). { destruct k as [| |t| | |]; try (right; discriminate). destruct t; [now left|right; discriminate]. }
    destruct DEC as [->|NW]; [|eexists; eapply q_acquired; [exact F2|congruence|exact M]].
    eexists. eapply q_again; [exact F2|exact M|]. econstructor; [eapply upd_same; exact F|exact Logic.I]. }
  destruct (B i c q E) as [[got ->]|BZ]; [now elim (ND got)|]. destruct (LK i c q E) as (k & p & F & L).
  assert (NDP : forall r, p <> Done r) by (intros r ->; destruct BZ as [-> | ->]; destruct L as [D _]; discriminate).
  destruct (C83_stuck_only_without_permits 0 n (sem a) ltac:(lia) N RS BS i k p SS F NDP) as [KW GE].
  assert (CQ : c = Dequeue k). { destruct BZ as [-> | ->]; [destruct L as (_ & xs & _ & ->); destruct KW as [D|[max D]]; discriminate|apply L]. }
  split; [exists k; split; [exact CQ|exact KW]|].
  assert (TB : forall f : qcall A * qpc A -> Z, (forall d r, (exists got, r = QDone got) \/ busy r -> f (d, r) = 0) -> total f (qthreads a) = 0).
  { intros f F0. assert (G : forall t, In t (qthreads a) -> f t = 0). { intros [d r] H. apply In_nth_error in H. destruct H as [j H]. apply F0. exact (B j d r H). }
    unfold total. clear - G. induction (qthreads a) as [|t ts IH]; [reflexivity|]. cbn [fold_right]. rewrite (G t (or_introl eq_refl)), IH; [reflexivity|]. intros u U. apply G. now right. }
  pose proof books as BK. change (all_to_take a) with (total to_take (qthreads a)) in BK. assert (BP : forall d r, (exists got, r = @QDone A got) \/ busy r -> being_put (d, r) = []) by (intros [|xs|how] r [[got ->]|[-> | ->]]; reflexivity).
  assert (BH : forall d r, (exists got, r = @QDone A got) \/ busy r -> in_hands (d, r) = []) by (intros d r [[got ->]|[-> | ->]]; reflexivity).
  rewrite !TB in BK; [| |intros; rewrite BP; auto]; [|intros d r [[got ->]|[-> | ->]]; reflexivity].
  assert (BE : bag a = []) by (destruct (bag a) as [|x l]; [reflexivity|]; rewrite zlen_cons in BK; pose proof (zlen_nonneg l); lia). split; [exact BE|].
  unfold put_in, taken_out in IT. rewrite BE in IT. cbn [app] in IT.
  assert (FB : forall (f : qcall A * qpc A -> list A), (forall d r, (exists got, r = QDone got) \/ busy r -> f (d, r) = []) -> flat_map f (qthreads a) = []).
  { intros f F0. assert (G : forall t, In t (qthreads a) -> f t = []). { intros [d r] H. apply In_nth_error in H. destruct H as [j H]. apply F0. exact (B j d r H). }
    clear - G. induction (qthreads a) as [|t ts IH]; [reflexivity|]. cbn [flat_map]. rewrite (G t (or_introl eq_refl)), IH; [reflexivity|]. intros u U. apply G. now right. }
  rewrite !FB in IT by auto. now rewrite !app_nil_r in IT.
Qed.
(** size_approx never counts an item that is not there, and is exact when no call is under way *)
Theorem C85_size_approx : 0 <= size_approx a <= zlen (bag a) /\ (qquiet a -> size_approx a = zlen (bag a)).
Proof.
  pose proof I as [RS LEN SLEN LK SG GR IT]. pose proof books as B. pose proof (C83_availableApprox 0 n (sem a) ltac:(lia) N RS BS) as AA. unfold size_approx.
  pose proof (totals_nonneg (fun t => zlen (being_put t)) (qthreads a) ltac:(intros; apply zlen_nonneg)) as Z1. pose proof (totals_nonneg to_take (qthreads a) take_nonneg) as Z2. change (all_to_take a) with (total to_take (qthreads a)) in B.
  pose proof (reach_inv 0 n (sem a) ltac:(lia) N RS BS) as SI. pose proof (inv_sums _ _ _ SI) as (_ & _ & _ & Z3). change (all_in_hand (sem a)) with (sum holds (threads (sem a))) in AA.
  split; [lia|]. intros Q.
  assert (SQ : quiet (sem a)). { intros j k p F. destruct (sem_thread j k p F) as (c & q & F2 & L). destruct (Q j c q F2) as [got ->]. destruct L as [D _]. now apply is_done_ex. }
  destruct (C83_books_balance 0 n (sem a) ltac:(lia) N RS BS SQ) as (C1 & C2 & -> & _).
  destruct (enqueue_quiet ltac:(intros j c q F _; eauto)) as [_ Z4].
  assert (Z5 : total to_take (qthreads a) = 0).
  { assert (G : forall t, In t (qthreads a) -> to_take t = 0). { intros [d r] H. apply In_nth_error in H. destruct H as [j H]. destruct (Q j d r H) as [got ->]. reflexivity. }
    unfold total. clear - G. induction (qthreads a) as [|t ts IH]; [reflexivity|]. cbn [fold_right]. rewrite (G t (or_introl eq_refl)), IH; [reflexivity|]. intros u U. apply G. now right. }
  lia.
Qed.
End Any.
Print Assumptions C85_nothing_lost_or_duplicated.
Print Assumptions C85_items_to_take_are_there.
Print Assumptions C85_taker_can_go.
Print Assumptions C85_results.
Print Assumptions C85_consumer_wakes.
Print Assumptions C85_stuck_only_when_empty.
Print Assumptions C85_size_approx.

(** ** A concrete run: one thread enqueues 7 and 8 in one call; half way through, 7 is in *)
Definition halfway : qsys Z := mkQ (init 0 2) [7] [(Enqueue [7; 8], Put [8]); (QNothing, QDone [])] [] [].
Example C85_halfway : qreach 2 halfway /\ put_in halfway = [7].
Proof.
  split; [|reflexivity].
  assert (A1 : qreach 2 (mkQ (init 0 2) ([] : list Z) [(Enqueue [7; 8], Enter); (QNothing, QDone [])] [] [])).
  { eapply qr_call; [apply qr_init|]. apply (q_enqueue Z (init 0 2) [] [(QNothing, QDone []); (QNothing, QDone [])] [] [] 0 QNothing [] [7; 8]); [reflexivity|vm_compute; discriminate]. }
  assert (A2 : qreach 2 (mkQ (init 0 2) ([] : list Z) [(Enqueue [7; 8], Put [7; 8]); (QNothing, QDone [])] [] [])).
  { eapply qr_step; [exact A1|]. apply (q_accepted Z (init 0 2) [] [(Enqueue [7; 8], Enter); (QNothing, QDone [])] [] [] 0 [7; 8]). reflexivity. }
  eapply qr_step; [exact A2|]. apply (q_put Z (init 0 2) [] [(Enqueue [7; 8], Put [7; 8]); (QNothing, QDone [])] [] [] 0 [7; 8] 7 [8]). reflexivity.
Qed.
(** the other thread then dequeues without waiting: it gets an item once the signal is through *)
Definition dequeued : qsys Z := mkQ (mkSys 1 0 [(Signal 2, Done 0); (TryWait, Done 1)] 1 2) [8] [(Enqueue [7; 8], QDone []); (Dequeue TryWait, QDone [7])] [[7; 8]] [[7]].
Example C85_dequeued : qreach 2 dequeued /\ taken_out dequeued = [7] /\ size_approx dequeued = 1.
Proof.
  split; [|split; reflexivity]. destruct C85_halfway as [A0 _].
  assert (A1 : qreach 2 (mkQ (init 0 2) [8; 7] [(Enqueue [7; 8], Put []); (QNothing, QDone [])] [] [])).
  { eapply qr_step; [exact A0|]. apply (q_put Z (init 0 2) [7] [(Enqueue [7; 8], Put [8]); (QNothing, QDone [])] [] [] 0 [7; 8] 8 []). reflexivity. }
  assert (A2 : qreach 2 (mkQ (mkSys 0 0 [(Signal 2, Add 2); (Nothing, Done 0)] 0 2) [8; 7] [(Enqueue [7; 8], Signalling); (QNothing, QDone [])] [[7; 8]] [])).
  { eapply qr_step; [exact A1|]. apply (q_signal Z (init 0 2) _ [8; 7] [(Enqueue [7; 8], Put []); (QNothing, QDone [])] [] [] 0 [7; 8]); [reflexivity|]. apply (m_call 0 (Signal 2) 0 0 [(Nothing, Done 0); (Nothing, Done 0)] 0 0 Nothing 0); [reflexivity|cbn; unfold long_max; lia]. }
  assert (A3 : qreach 2 (mkQ (mkSys 2 0 [(Signal 2, Done 0); (Nothing, Done 0)] 0 2) [8; 7] [(Enqueue [7; 8], QDone []); (QNothing, QDone [])] [[7; 8]] [])).
  { eapply qr_step; [exact A2|]. apply (q_signalled Z (mkSys 0 0 [(Signal 2, Add 2); (Nothing, Done 0)] 0 2) _ [8; 7] [(Enqueue [7; 8], Signalling); (QNothing, QDone [])] [[7; 8]] [] 0 (Enqueue [7; 8]) 0); [reflexivity|].
    apply (m_run 0 0 0 [(Signal 2, Add 2); (Nothing, Done 0)] 0 2 (Signal 2) (Add 2) 2 0 (Done 0)); [reflexivity|]. apply (t_add 0 0 2). lia. }
  assert (A4 : qreach 2 (mkQ (mkSys 2 0 [(Signal 2, Done 0); (TryWait, Load One 1 0 None)] 0 2) [8; 7] [(Enqueue [7; 8], QDone []); (Dequeue TryWait, Acquiring)] [[7; 8]] [])).
  { eapply qr_call; [exact A3|]. apply (q_dequeue Z (mkSys 2 0 [(Signal 2, Done 0); (Nothing, Done 0)] 0 2) _ [8; 7] [(Enqueue [7; 8], QDone []); (QNothing, QDone [])] [[7; 8]] [] 1 QNothing [] TryWait); [reflexivity|exact Logic.I|].
    apply (m_call 1 TryWait 2 0 [(Signal 2, Done 0); (Nothing, Done 0)] 0 2 Nothing 0); [reflexivity|exact Logic.I]. }
  assert (A5 : qreach 2 (mkQ (mkSys 2 0 [(Signal 2, Done 0); (TryWait, Cas One 1 0 None 2)] 0 2) [8; 7] [(Enqueue [7; 8], QDone []); (Dequeue TryWait, Acquiring)] [[7; 8]] [])).
  { eapply qr_step; [exact A4|]. eapply (q_sem Z (mkSys 2 0 [(Signal 2, Done 0); (TryWait, Load One 1 0 None)] 0 2) _ [8; 7] [(Enqueue [7; 8], QDone []); (Dequeue TryWait, Acquiring)] [[7; 8]] [] 1); [reflexivity|right; reflexivity| |].
    - apply (m_run 1 2 0 [(Signal 2, Done 0); (TryWait, Load One 1 0 None)] 0 2 TryWait (Load One 1 0 None) 2 0 (Cas One 1 0 None 2)); [reflexivity|]. constructor.
    - reflexivity. }
  assert (A6 : qreach 2 (mkQ (mkSys 1 0 [(Signal 2, Done 0); (TryWait, Done 1)] 1 2) [8; 7] [(Enqueue [7; 8], QDone []); (Dequeue TryWait, Take 1 [])] [[7; 8]] [])).
  { eapply qr_step; [exact A5|]. apply (q_acquired Z (mkSys 2 0 [(Signal 2, Done 0); (TryWait, Cas One 1 0 None 2)] 0 2) _ [8; 7] [(Enqueue [7; 8], QDone []); (Dequeue TryWait, Acquiring)] [[7; 8]] [] 1 TryWait 1); [reflexivity|discriminate|].
    apply (m_run 1 2 0 [(Signal 2, Done 0); (TryWait, Cas One 1 0 None 2)] 0 2 TryWait (Cas One 1 0 None 2) 1 0 (Done 1)); [reflexivity|]. apply (t_cas 0 One 1 0 None 2). lia. }
  assert (A7 : qreach 2 (mkQ (mkSys 1 0 [(Signal 2, Done 0); (TryWait, Done 1)] 1 2) [8] [(Enqueue [7; 8], QDone []); (Dequeue TryWait, Take 0 [7])] [[7; 8]] [])).
  { eapply qr_step; [exact A6|]. apply (q_take Z _ [8] 7 [] [(Enqueue [7; 8], QDone []); (Dequeue TryWait, Take 1 [])] [[7; 8]] [] 1 (Dequeue TryWait) 1 []); [reflexivity|discriminate]. }
  eapply qr_step; [exact A7|]. apply (q_taken Z _ [8] [(Enqueue [7; 8], QDone []); (Dequeue TryWait, Take 0 [7])] [[7; 8]] [] 1 (Dequeue TryWait) [7]). reflexivity.
Qed.
