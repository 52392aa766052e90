(** C83: permits of the lightweight semaphore.  C84: results of its calls. *)

From Coq Require Import ZArith List Bool Lia.
From Verif Require Import Base Bits SemaphoreSpec SemaphoreProofs LwSemModel LwSemSpec LwSemProofs.
Import ListNotations.
Open Scope Z_scope.

Section Any.
Variables (permits : Z) (n : nat) (a : sys).
(* any initial count, fewer than 2^31 threads, fewer than 2^63 permits in all *)
Hypotheses (P0 : 0 <= permits) (N : Z.of_nat n < 2 ^ 31) (R : reach permits n a) (BD : permits + signalled a < 2 ^ 63).
Let I : inv permits n a := reach_inv permits n a P0 N R BD.

Theorem C83_never_more_than_given : granted a + all_in_hand a <= permits + signalled a.
Proof.
  pose proof (inv_sums _ _ _ I) as (SW & SP & SU & SH). destruct I as [OK LEN CNT WTS SM GR SG]. change (all_in_hand a) with (sum holds (threads a)).
  assert (- sum waits (threads a) <= count a) by lia. lia.
Qed.

Lemma quiet_sums f : (forall r, f (Done r) = 0) -> quiet a -> sum f (threads a) = 0.
Proof.
  intros F Q. unfold quiet, thread_at in Q. unfold sum, total. revert Q. clear -F. induction (threads a) as [|[c p] ts IH]; intros Q; [reflexivity|]. cbn [fold_right snd].
  destruct (Q O c p eq_refl) as [r ->]. rewrite F, IH; [reflexivity|]. intros i c' p' E. exact (Q (S i) c' p' E).
Qed.
Theorem C83_books_balance : quiet a -> count a = permits + signalled a - granted a /\ 0 <= count a /\ availableApprox a = count a /\ sema a = 0.
Proof.
  intros Q. destruct I as [OK LEN CNT WTS SM GR SG]. rewrite !quiet_sums in * by (auto; reflexivity). unfold availableApprox. assert (0 <= count a /\ sema a = 0) as [C S0] by lia.
  repeat split; try lia. destruct (Z.ltb_spec 0 (count a)); lia.
Qed.
Theorem C83_availableApprox : 0 <= availableApprox a <= permits + signalled a - granted a - all_in_hand a.
Proof.
  pose proof (inv_sums _ _ _ I) as (SW & SP & SU & SH). pose proof C83_never_more_than_given as NM. unfold availableApprox. destruct I as [OK LEN CNT WTS SM GR SG]. change (all_in_hand a) with (sum holds (threads a)) in *.
  destruct (Z.ltb_spec 0 (count a)); lia.
Qed.

Lemma in_thread x : In x (threads a) -> exists i, thread_at a i (fst x) (snd x).
Proof. intros H. apply In_nth_error in H. destruct H as [i E]. exists i. unfold thread_at. rewrite E. now destruct x. Qed.
Lemma no_signal_sums : no_signal a -> sum posts (threads a) = 0 /\ sum unsent (threads a) = 0.
Proof.
  intros Q. destruct I as [OK _ _ _ _ _ _]. assert (G : forall x, In x (threads a) -> posts (snd x) = 0 /\ unsent (snd x) = 0).
  { intros x H. pose proof (OK x H) as O. destruct (in_thread x H) as [i E]. specialize (Q i _ _ E). destruct (snd x); cbn [posts unsent pc_ok] in *; auto.
    - destruct O as [O _]. destruct (Q ltac:(eauto)) as [r D]. discriminate.
    - destruct (Q O) as [r D]. discriminate. }
  unfold sum, total. clear Q OK. induction (threads a) as [|x ts IH]; [auto|]. cbn [fold_right]. destruct (G x (or_introl eq_refl)) as [-> ->]. apply IH. intros y H. apply G. now right.
Qed.
Lemma waiting_sum i c p : thread_at a i c p -> waits p = 1 -> 1 <= sum waits (threads a).
Proof. intros E W. rewrite <- W. apply (sum_ge waits (threads a) i c p); [intros; apply waits_01|exact E]. Qed.

(** no lost wake-up: while permits are free and no signal is half done, a sleeping thread can go on *)
Theorem C83_sleeper_can_go i c p : thread_at a i c p -> asleep p -> no_signal a -> granted a + all_in_hand a < permits + signalled a ->
  exists b q, tstep (count a) (sema a) p (count a) (sema a - 1) q /\ step a b /\ thread_at b i c q /\ waits q = 0.
Proof.
  intros E A Q F. destruct (no_signal_sums Q) as [QP QU]. destruct I as [OK LEN CNT WTS SM GR SG]. change (all_in_hand a) with (sum holds (threads a)) in F.
  assert (W1 : 1 <= sum waits (threads a)). { apply (waiting_sum i c p E). destruct A as (k & max & [-> | ->]); reflexivity. }
  assert (S0 : 0 < sema a) by lia.
  destruct A as (k & max & K). exists (mkSys (count a) (sema a - 1) (upd (threads a) i (c, got_one k max)) (granted a + returned (got_one k max)) (signalled a)), (got_one k max).
  assert (T : tstep (count a) (sema a) p (count a) (sema a - 1) (got_one k max)) by (destruct K as [-> | ->]; constructor; exact S0).
  split; [exact T|]. split; [destruct a as [ac as_ at_ ag ar]; apply s_run with (k := c) (p := p); [exact E|exact T]|]. split; [|apply got_sums].
  unfold thread_at in *. cbn [threads]. rewrite nth_error_upd. rewrite Nat.eqb_refl. assert (L : (i < length (threads a))%nat) by (apply nth_error_Some; congruence). apply Nat.ltb_lt in L. now rewrite L.
Qed.
(** a thread that gives up is not left spinning: it can take its place back or a wake-up is there *)
Theorem C83_giving_up_ends i c p : thread_at a i c p -> gives_up p -> no_signal a -> count a < 0 \/ 0 < sema a.
Proof.
  intros E A Q. destruct (no_signal_sums Q) as [QP QU]. destruct I as [OK LEN CNT WTS SM GR SG].
  assert (W1 : 1 <= sum waits (threads a)). { apply (waiting_sum i c p E). destruct A as (k & max & [-> |[old ->]]); reflexivity. }
  lia.
Qed.
(** sem_post is never refused *)
Theorem C83_post_succeeds i c m : thread_at a i c (Post m) -> 0 < m -> sema a < SEM_VALUE_MAX.
Proof.
  intros E M. pose proof (inv_sums _ _ _ I) as (SW & SP & SU & SH). destruct I as [OK LEN CNT WTS SM GR SG].
  pose proof (sum_ge posts (threads a) i c (Post m) ltac:(intros; apply posts_0) E) as G. cbn [posts] in G. unfold SEM_VALUE_MAX. lia.
Qed.
Lemma can_step i c p c' s' p' : thread_at a i c p -> tstep (count a) (sema a) p c' s' p' -> exists b, step a b.
Proof. intros E T. destruct a as [ac as_ at_ ag ar]. eexists. eapply s_run; [exact E|exact T]. Qed.
Lemma not_stuck i c p : thread_at a i c p -> (forall r, p <> Done r) -> (forall k max, p <> Block k max) -> exists b, step a b.
Proof.
  intros E ND NB. destruct p as [r|k max acc t|k max acc t old|k max t spin|k max t spin old|k max t|k max|k max|k max|k max old|m|m].
  - now elim (ND r).
  - eapply can_step; [exact E|apply t_load with (old := count a)].
  - destruct (Z_lt_le_dec 0 old) as [L|L]; [eapply can_step; [exact E|now apply t_cas_fails]|]. destruct t as [t|]; [|eapply can_step; [exact E|now apply t_cas_none]].
    destruct (Z_lt_le_dec 0 max); eapply can_step; [exact E|now apply t_cas_wait|exact E|now apply t_cas_zero].
  - destruct (Z_lt_le_dec 0 spin) as [L|L]; [|eapply can_step; [exact E|now apply t_spin_out]]. eapply can_step; [exact E|apply (t_spin_none _ _ _ _ _ _ 0); [exact L|lia]].
  - destruct (Z.eq_dec (count a) old) as [L|L]; [|eapply can_step; [exact E|now apply t_spin_fails]]. eapply can_step; [exact E|]. rewrite L. apply t_spin_cas.
  - destruct (Z_lt_le_dec 0 (count a)); eapply can_step; [exact E|now apply t_dec|exact E|now apply t_dec_wait].
  - now elim (NB k max).
  - eapply can_step; [exact E|apply t_timeout].
  - eapply can_step; [exact E|apply t_adjust with (old := count a)].
  - destruct (Z_lt_le_dec old 0) as [L|L].
    + destruct (Z.eq_dec (count a) old) as [K|K]; eapply can_step; [exact E|rewrite K; now apply t_adjust_back|exact E|now apply t_adjust_fails].
    + destruct (Z_lt_le_dec 0 (sema a)); eapply can_step; [exact E|now apply t_adjust_take|exact E|now apply t_adjust_again].
  - destruct (Z_lt_le_dec 0 (Z.min (- count a) m)); eapply can_step; [exact E|now apply t_add_release|exact E|now apply t_add].
  - destruct (Z_lt_le_dec 0 m) as [L|L]; [|eapply can_step; [exact E|now apply t_posted]]. destruct (Z_lt_le_dec (sema a) SEM_VALUE_MAX); eapply can_step; [exact E|now apply t_post|exact E|now apply t_post_full].
Qed.
(** when nothing can go on, the unfinished calls are waits without timeout, and every permit is taken *)
Theorem C83_stuck_only_without_permits i c p : stuck a -> thread_at a i c p -> (forall r, p <> Done r) -> (c = Wait Never \/ exists max, c = WaitMany max Never) /\ granted a = permits + signalled a.
Proof.
  intros ST E ND.
  assert (B : forall j d q, thread_at a j d q -> (exists r, q = Done r) \/ exists k max, q = Block k max).
  { intros j d q F. destruct q; try (now left; eauto); try (now right; eauto); exfalso; destruct (not_stuck j d _ F ltac:(discriminate) ltac:(discriminate)) as [b S0]; exact (ST b S0). }
  destruct (B i c p E) as [[r ->]|(k & max & ->)]; [now elim (ND r)|].
  destruct I as [OK LEN CNT WTS SM GR SG]. split.
  { pose proof (OK _ (nth_error_In _ _ E)) as O. cbn [fst snd pc_ok] in O. destruct O as [(-> & _)|(-> & _)]; eauto. }
  assert (QS : no_signal a). { intros j d q F [m ->]. destruct (B j _ q F) as [D|(k' & max' & ->)]; [exact D|]. pose proof (OK _ (nth_error_In _ _ F)) as O. cbn [fst snd pc_ok] in O. destruct O as [(D & _)|(D & _)]; discriminate. }
  destruct (no_signal_sums QS) as [QP QU].
  assert (QH : sum holds (threads a) = 0).
  { assert (G : forall x, In x (threads a) -> holds (snd x) = 0). { intros x H. destruct (in_thread x H) as [j F]. destruct (B j _ _ F) as [[r ->]|(k' & max' & ->)]; reflexivity. }
    unfold sum, total. clear - G. induction (threads a) as [|x ts IH]; [reflexivity|]. cbn [fold_right]. rewrite (G x (or_introl eq_refl)), IH; [reflexivity|]. intros y H. apply G. now right. }
  assert (S0 : sema a <= 0). { destruct (Z_lt_le_dec 0 (sema a)) as [L|L]; [|exact L]. exfalso. destruct (can_step i c _ _ _ _ E (t_block (count a) (sema a) k max L)) as [b SB]. exact (ST b SB). }
  pose proof (waiting_sum i c _ E eq_refl). lia.
Qed.

Theorem C84_results i c r : thread_at a i c (Done r) -> result_ok c r.
Proof. intros E. destruct I as [OK _ _ _ _ _ _]. exact (proj1 (OK _ (nth_error_In _ _ E))). Qed.
(** without a timeout a call never gives up, and only calls that take permits sleep *)
Theorem C84_who_sleeps i c p : thread_at a i c p -> (asleep p -> (exists t, c = Wait t) \/ exists max t, c = WaitMany max t /\ 0 < max) /\
  (gives_up p -> c = Wait After \/ exists max, c = WaitMany max After).
Proof.
  intros E. destruct I as [OK _ _ _ _ _ _]. pose proof (OK _ (nth_error_In _ _ E)) as O. cbn [fst snd] in O. split.
  - intros (k & max & [-> | ->]); destruct O as [(-> & _)|(-> & _ & M)]; eauto 6.
  - intros (k & max & [-> |[old ->]]); destruct O as [(-> & _)|(-> & _ & M)]; eauto.
Qed.
End Any.
Print Assumptions C83_never_more_than_given.
Print Assumptions C83_books_balance.
Print Assumptions C83_availableApprox.
Print Assumptions C83_sleeper_can_go.
Print Assumptions C83_giving_up_ends.
Print Assumptions C83_post_succeeds.
Print Assumptions C83_stuck_only_without_permits.
Print Assumptions C84_results.
Print Assumptions C84_who_sleeps.

(** ** Concrete runs *)
(** a thread whose spinning finds no permit decrements the count *)
Lemma spin_out permits n c s ts g r i k max t : forall m, reach permits n (mkSys c s ts g r) -> nth_error ts i = Some (k, Spin One max t (Z.of_nat m)) -> reach permits n (mkSys c s (upd ts i (k, Dec One max t)) g r).
Proof.
  intros m. revert ts. induction m as [|m IH]; intros ts R E.
  - replace g with (g + returned (Dec One max t)) by (cbn; lia). eapply r_step; [exact R|]. eapply s_run; [exact E|]. apply t_spin_out. lia.
  - set (ts' := upd ts i (k, Spin One max t (Z.of_nat m))).
    assert (LT : (i < length ts)%nat) by (apply nth_error_Some; congruence).
    assert (R' : reach permits n (mkSys c s ts' g r)).
    { replace g with (g + returned (Spin One max t (Z.of_nat m))) by (cbn; lia). eapply r_step; [exact R|]. unfold ts'. eapply s_run; [exact E|]. replace (Z.of_nat m) with (Z.of_nat (S m) - 1) by lia. apply t_spin_none with (old := 0); lia. }
    assert (E' : nth_error ts' i = Some (k, Spin One max t (Z.of_nat m))). { unfold ts'. rewrite nth_error_upd, Nat.eqb_refl. apply Nat.ltb_lt in LT. now rewrite LT. }
    specialize (IH ts' R' E'). unfold ts' in IH. assert (UU : forall (l : list (call * pc)) j x y, upd (upd l j x) j y = upd l j y) by (induction l as [|z l IHl]; intros [|j] x y; cbn [upd]; congruence). now rewrite UU in IH.
Qed.
Lemma run_at i k p c' s' p' permits n c s ts g r : reach permits n (mkSys c s ts g r) -> nth_error ts i = Some (k, p) -> tstep c s p c' s' p' -> reach permits n (mkSys c' s' (upd ts i (k, p')) (g + returned p') r).
Proof. intros R E T. eapply r_step; [exact R|]. eapply s_run; [exact E|exact T]. Qed.
(** two threads, no permits: the first waits for ever, the second then signals *)
Definition sleeping : sys := mkSys (-1) 0 [(Wait Never, Block One 1); (Nothing, Done 0)] 0 0.
Lemma sleeping_reach : reach 0 2 sleeping.
Proof.
  assert (A1 : reach 0 2 (mkSys 0 0 [(Wait Never, Load One 1 0 (Some Never)); (Nothing, Done 0)] 0 0)).
  { eapply r_call; [apply r_init|]. cbn [init repeat]. apply (s_call 0 0 [(Nothing, Done 0); (Nothing, Done 0)] 0 0 O Nothing 0 (Wait Never)); [reflexivity|exact Logic.I]. }
  assert (A2 : reach 0 2 (mkSys 0 0 [(Wait Never, Cas One 1 0 (Some Never) 0); (Nothing, Done 0)] 0 0)).
  { apply (run_at O (Wait Never) (Load One 1 0 (Some Never)) (0) 0 (Cas One 1 0 (Some Never) 0) _ _ _ _ _ _ _ A1 eq_refl). constructor. }
  assert (A3 : reach 0 2 (mkSys 0 0 [(Wait Never, Spin One 1 Never spins); (Nothing, Done 0)] 0 0)).
  { apply (run_at O (Wait Never) (Cas One 1 0 (Some Never) 0) (0) 0 (Spin One 1 Never spins) _ _ _ _ _ _ _ A2 eq_refl). constructor; lia. }
  assert (A4 : reach 0 2 (mkSys 0 0 [(Wait Never, Dec One 1 Never); (Nothing, Done 0)] 0 0)).
  { apply (spin_out 0 2 0 0 [(Wait Never, Spin One 1 Never spins); (Nothing, Done 0)] 0 0 O (Wait Never) 1 Never (Z.to_nat spins) A3). rewrite Z2Nat.id by (unfold spins; lia). reflexivity. }
  apply (run_at O (Wait Never) (Dec One 1 Never) ((-1)) 0 (Block One 1) _ _ _ _ _ _ _ A4 eq_refl). apply (t_dec_wait 0 0 One 1 Never). lia.
Qed.
Definition woken : sys := mkSys 0 1 [(Wait Never, Block One 1); (Signal 1, Done 0)] 0 1.
Lemma woken_reach : reach 0 2 woken.
Proof.
  assert (A1 : reach 0 2 (mkSys (-1) 0 [(Wait Never, Block One 1); (Signal 1, Add 1)] 0 1)).
  { eapply r_call; [apply sleeping_reach|]. apply (s_call (-1) 0 [(Wait Never, Block One 1); (Nothing, Done 0)] 0 0 1%nat Nothing 0 (Signal 1)); [reflexivity|cbn; unfold long_max; lia]. }
  assert (A2 : reach 0 2 (mkSys 0 0 [(Wait Never, Block One 1); (Signal 1, Post 1)] 0 1)).
  { apply (run_at 1%nat (Signal 1) (Add 1) (0) 0 (Post 1) _ _ _ _ _ _ _ A1 eq_refl). apply (t_add_release (-1) 0 1). lia. }
  assert (A3 : reach 0 2 (mkSys 0 1 [(Wait Never, Block One 1); (Signal 1, Post 0)] 0 1)).
  { apply (run_at 1%nat (Signal 1) (Post 1) (0) 1 (Post 0) _ _ _ _ _ _ _ A2 eq_refl). apply (t_post 0 0 1); unfold SEM_VALUE_MAX; lia. }
  apply (run_at 1%nat (Signal 1) (Post 0) (0) 1 (Done 0) _ _ _ _ _ _ _ A3 eq_refl). constructor. lia.
Qed.
(** the hypotheses of [C83_sleeper_can_go] and of [C83_stuck_only_without_permits] are met *)
Example C83_woken_can_go : exists b q, tstep 0 1 (Block One 1) 0 0 q /\ step woken b /\ thread_at b 0 (Wait Never) q /\ waits q = 0.
Proof.
  apply (C83_sleeper_can_go 0 2 woken ltac:(lia) ltac:(vm_compute; reflexivity) woken_reach ltac:(vm_compute; reflexivity) 0 (Wait Never) (Block One 1)); [reflexivity|exists One, 1; now left| |vm_compute; reflexivity].
  intros [|[|[|i]]] c p E; unfold thread_at in E; cbn in E; try discriminate; injection E as <- <-; intros [m K]; [discriminate|]; eauto.
Qed.
Example C83_sleeping_stuck : stuck sleeping /\ granted sleeping = 0 + signalled sleeping.
Proof.
  assert (ST : stuck sleeping). { intros b S0. inversion S0; subst. destruct i as [|[|[|i]]]; cbn in H5; try discriminate; injection H5 as <- <-; inversion H6; subst; lia. }
  split; [exact ST|]. exact (proj2 (C83_stuck_only_without_permits 0 2 sleeping ltac:(lia) ltac:(vm_compute; reflexivity) sleeping_reach ltac:(vm_compute; reflexivity) 0 (Wait Never) (Block One 1) ST eq_refl ltac:(discriminate))).
Qed.
(** waitMany(0) without timeout returns 0 (and fails the assertion result > 0, line 385) although its comment promises at least one *)
Theorem C84_waitMany_zero : exists b, reach 0 1 b /\ thread_at b 0 (WaitMany 0 Never) (Done 0).
Proof.
  assert (A1 : reach 0 1 (mkSys 0 0 [(WaitMany 0 Never, Load Many 0 0 (Some Never))] 0 0)).
  { eapply r_call; [apply r_init|]. cbn [init repeat]. apply (s_call 0 0 [(Nothing, Done 0)] 0 0 O Nothing 0 (WaitMany 0 Never)); [reflexivity|cbn; unfold long_max; lia]. }
  assert (A2 : reach 0 1 (mkSys 0 0 [(WaitMany 0 Never, Cas Many 0 0 (Some Never) 0)] 0 0)).
  { apply (run_at O (WaitMany 0 Never) (Load Many 0 0 (Some Never)) (0) 0 (Cas Many 0 0 (Some Never) 0) _ _ _ _ _ _ _ A1 eq_refl). constructor. }
  eexists. split; [apply (run_at O (WaitMany 0 Never) (Cas Many 0 0 (Some Never) 0) 0 0 (Done 0) _ _ _ _ _ _ _ A2 eq_refl); apply t_cas_zero; lia|reflexivity].
Qed.
Print Assumptions C84_waitMany_zero.
