(** Invariant of the blocking queue. *)

From Coq Require Import ZArith List Bool Lia Permutation.
From Verif Require Import Base Bits SemaphoreSpec SemaphoreProofs LwSemModel LwSemSpec LwSemProofs LwSemProps BlockingQueueModel BlockingQueueSpec.
Import ListNotations.
Open Scope Z_scope.

(** ** Lists up to order *)
Lemma pm_next {A} (x y R R' : list A) : Permutation R (x ++ R') -> Permutation (y ++ R) (x ++ y ++ R').
Proof. intros H. rewrite H. apply Permutation_app_swap_app. Qed.
Lemma pm_step {A} (x L R R' : list A) : Permutation R (x ++ R') -> Permutation L R' -> Permutation (x ++ L) R.
Proof. intros H K. rewrite H. now apply Permutation_app_head. Qed.
Lemma pm_pad {A} (L R : list A) : Permutation (L ++ []) (R ++ []) -> Permutation L R.
Proof. now rewrite !app_nil_r. Qed.
Ltac find_atom := first [apply Permutation_refl | apply pm_next; find_atom].
Ltac perm := rewrite <- ?app_assoc, ?app_nil_l, ?app_nil_r; apply pm_pad; rewrite <- ?app_assoc; repeat (eapply pm_step; [find_atom|]); apply Permutation_refl.
Lemma perm_books {A} (Ac F B D H dA F' B' D' H' f0 f1 h0 h1 : list A) : Permutation (Ac ++ F) (B ++ D ++ H) -> Permutation (F' ++ f0) (F ++ f1) -> Permutation (H' ++ h0) (H ++ h1) ->
  Permutation (dA ++ f1 ++ h0 ++ B ++ D) (f0 ++ h1 ++ B' ++ D') -> Permutation ((dA ++ Ac) ++ F') (B' ++ D' ++ H').
Proof.
  intros P1 P2 P3 P4. apply (Permutation_app_inv_r (f0 ++ h0)).
  transitivity ((dA ++ Ac) ++ (F' ++ f0) ++ h0); [perm|]. rewrite P2. transitivity (dA ++ f1 ++ h0 ++ (Ac ++ F)); [perm|]. rewrite P1.
  transitivity ((dA ++ f1 ++ h0 ++ B ++ D) ++ H); [perm|]. rewrite P4. transitivity (f0 ++ B' ++ D' ++ (H ++ h1)); [perm|]. rewrite <- P3. perm.
Qed.
Lemma flat_map_upd {X A} (f : X -> list A) l i x y : nth_error l i = Some x -> Permutation (flat_map f (upd l i y) ++ f x) (flat_map f l ++ f y).
Proof.
  revert i. induction l as [|a l IH]; intros [|i] E; try discriminate; cbn [nth_error] in E; cbn [upd flat_map].
  - injection E as ->. perm.
  - specialize (IH i E). rewrite <- app_assoc, IH. perm.
Qed.
Lemma zlen_flat_map {X A} (f : X -> list A) l : zlen (flat_map f l) = total (fun x => zlen (f x)) l.
Proof. unfold total. induction l as [|a l IH]; [reflexivity|]. cbn [flat_map fold_right]. rewrite zlen_app, IH. reflexivity. Qed.
Lemma zlen_perm {A} (l l' : list A) : Permutation l l' -> zlen l = zlen l'.
Proof. intros P. unfold zlen. now rewrite (Permutation_length P). Qed.

(** ** The semaphore below *)
Lemma moves_step i s s' p : moves i s s' p -> step s s'.
Proof. destruct 1. eapply s_run; eauto. Qed.
Lemma starts_call i k s s' : starts i k s s' -> calls s s'.
Proof. destruct 1. eapply s_call; eauto. Qed.
Lemma upd_same {A} (l : list A) i x y : nth_error l i = Some x -> nth_error (upd l i y) i = Some y.
Proof. intros E. rewrite nth_error_upd, Nat.eqb_refl. assert (L : (i < length l)%nat) by (apply nth_error_Some; congruence). apply Nat.ltb_lt in L. now rewrite L. Qed.
Lemma upd_other {A} (l : list A) i j y : j <> i -> nth_error (upd l i y) j = nth_error l j.
Proof. intros N. rewrite nth_error_upd. destruct (Nat.eqb_spec i j); [congruence|]. destruct (Nat.eqb_spec j i); [congruence|]. reflexivity. Qed.
Lemma moves_eff i s s' p : moves i s s' p -> (exists k q, thread_at s i k q /\ is_done q = false /\ thread_at s' i k p) /\ (forall j, j <> i -> nth_error (threads s') j = nth_error (threads s) j) /\
  granted s' = granted s + returned p /\ signalled s' = signalled s /\ length (threads s') = length (threads s).
Proof.
  destruct 1 as [c s ts g r k p0 c' s' p' E T]. unfold thread_at. cbn [threads granted signalled]. split; [exists k, p0; split; [exact E|]; split; [|eapply upd_same; eauto]|split; [intros; now apply upd_other|rewrite upd_length; auto]].
  destruct T; reflexivity.
Qed.
Lemma starts_eff i k s s' : starts i k s s' -> (exists k0 r, thread_at s i k0 (Done r)) /\ thread_at s' i k (start k) /\ valid k /\ (forall j, j <> i -> nth_error (threads s') j = nth_error (threads s) j) /\
  granted s' = granted s /\ signalled s' = signalled s + given k /\ length (threads s') = length (threads s).
Proof.
  destruct 1 as [c s ts g r k0 res E V]. unfold thread_at. cbn [threads granted signalled]. split; [eauto|]. split; [eapply upd_same; eauto|]. split; [exact V|]. split; [intros; now apply upd_other|]. rewrite upd_length; auto.
Qed.

(** ** The invariant *)
Section Queue.
Context {A : Type}.
Definition link (c : qcall A) (q : qpc A) (k : call) (p : pc) : Prop :=
  match q with
  | QDone got => is_done p = true /\ match c with Dequeue how => result_ok how (zlen got) | _ => got = [] end
  | Enter => is_done p = true /\ exists xs, c = Enqueue xs /\ zlen xs <= long_max
  | Put rest => is_done p = true /\ exists d, c = Enqueue (d ++ rest) /\ zlen (d ++ rest) <= long_max
  | Signalling => is_done p = false /\ exists xs, c = Enqueue xs /\ k = Signal (zlen xs)
  | Acquiring => is_done p = false /\ c = Dequeue k /\ qvalid c
  | Take m got => is_done p = true /\ exists how, c = Dequeue how /\ result_ok how (m + zlen got) /\ 0 <= m
  end.
Record qinv (n : nat) (a : qsys A) : Prop := mkQInv {
  qi_reach : reach 0 n (sem a);
  qi_len : length (qthreads a) = n;
  qi_slen : length (threads (sem a)) = n;
  qi_link : forall i c q, nth_error (qthreads a) i = Some (c, q) -> exists k p, nth_error (threads (sem a)) i = Some (k, p) /\ link c q k p;
  qi_sig : signalled (sem a) = zlen (concat (accepted a));
  qi_gr : granted (sem a) = zlen (concat (delivered a)) + total (fun t => zlen (in_hands t)) (qthreads a) + total to_take (qthreads a);
  qi_items : Permutation (put_in a) (bag a ++ taken_out a) }.

Lemma total_repeat {X} (f : X -> Z) x n : f x = 0 -> total f (repeat x n) = 0.
Proof. intros F. unfold total. induction n as [|n IH]; [reflexivity|]. cbn [repeat fold_right]. lia. Qed.
Lemma flat_repeat {X B} (f : X -> list B) x n : f x = [] -> flat_map f (repeat x n) = [].
Proof. intros F. induction n as [|n IH]; [reflexivity|]. cbn [repeat flat_map]. now rewrite F. Qed.
Lemma nth_repeat {X} (x y : X) n i : nth_error (repeat x n) i = Some y -> y = x /\ (i < n)%nat.
Proof. intros E. split; [apply nth_error_In in E; now apply repeat_spec in E|]. assert (L : (i < length (repeat x n))%nat) by (apply nth_error_Some; congruence). now rewrite repeat_length in L. Qed.
Lemma qinv_init n : qinv n (qinit n).
Proof.
  constructor; cbn [qinit sem bag qthreads accepted delivered]; try apply repeat_length.
  - apply r_init.
  - intros i c q E. apply nth_repeat in E. destruct E as [E L]. injection E as -> ->. exists Nothing, (Done 0). split; [|cbn; auto]. cbn [init threads].
    destruct (nth_error (repeat (Nothing, Done 0) n) i) as [y|] eqn:F; [apply nth_repeat in F; now destruct F as [-> _]|]. apply nth_error_None in F. rewrite repeat_length in F. lia.
  - reflexivity.
  - cbn [init granted]. rewrite !total_repeat by reflexivity. reflexivity.
  - unfold put_in, taken_out, qinit. cbn [accepted delivered qthreads bag concat]. rewrite !flat_repeat by reflexivity. constructor.
Qed.

(** a step that changes thread [i] of the queue, and of the semaphore only thread [i] *)
Lemma link_upd n (a : qsys A) s' i c0 q0 c q : qinv n a -> nth_error (qthreads a) i = Some (c0, q0) -> (forall j, j <> i -> nth_error (threads s') j = nth_error (threads (sem a)) j) ->
  (exists k p, nth_error (threads s') i = Some (k, p) /\ link c q k p) ->
  forall j c' q', nth_error (upd (qthreads a) i (c, q)) j = Some (c', q') -> exists k p, nth_error (threads s') j = Some (k, p) /\ link c' q' k p.
Proof.
  intros I E O L j c' q' F. destruct (Nat.eq_dec j i) as [->|NE].
  - rewrite (upd_same _ _ _ _ E) in F. injection F as <- <-. exact L.
  - rewrite upd_other in F by auto. rewrite O by auto. eapply qi_link; eauto.
Qed.
Lemma total_at f (ts : list (qcall A * qpc A)) i x y : nth_error ts i = Some x -> total f (upd ts i y) = total f ts - f x + f y.
Proof. intros E. now rewrite (total_upd _ _ _ _ _ E). Qed.
Lemma firstn_app_exact {X} (d r : list X) : firstn (length (d ++ r) - length r) (d ++ r) = d.
Proof. rewrite app_length. replace (length d + length r - length r)%nat with (length d) by lia. rewrite firstn_app, firstn_all, Nat.sub_diag. cbn. apply app_nil_r. Qed.
Lemma is_done_ex p : is_done p = true -> exists r, p = Done r.
Proof. destruct p; try discriminate. eauto. Qed.
Lemma zlen_concat_cons {X} (x : list X) l : zlen (concat (x :: l)) = zlen x + zlen (concat l).
Proof. cbn [concat]. apply zlen_app. Qed.

Lemma items_upd (a : qsys A) i x y dA b' dD : Permutation (put_in a) (bag a ++ taken_out a) -> nth_error (qthreads a) i = Some x ->
  Permutation (dA ++ being_put y ++ in_hands x ++ bag a) (being_put x ++ in_hands y ++ b' ++ dD) ->
  Permutation ((dA ++ concat (accepted a)) ++ flat_map being_put (upd (qthreads a) i y)) (b' ++ (dD ++ concat (delivered a)) ++ flat_map in_hands (upd (qthreads a) i y)).
Proof.
  intros P E Q. unfold put_in, taken_out in P.
  eapply perm_books; [exact P|apply (flat_map_upd being_put _ _ _ y E)|apply (flat_map_upd in_hands _ _ _ y E)|].
  transitivity ((dA ++ being_put y ++ in_hands x ++ bag a) ++ concat (delivered a)); [perm|]. rewrite Q. perm.
Qed.

Ltac same_items E P y := let H := fresh in pose proof (fun b' => items_upd _ _ _ y [] b' [] P E) as H; cbn [app accepted delivered qthreads bag] in H; apply H; clear H; cbn [being_put in_hands snd app].
Lemma qinv_step n a b : Z.of_nat n < 2 ^ 31 -> zlen (concat (accepted b)) < 2 ^ 63 -> qinv n a -> qstep a b -> qinv n b.
Proof.
  intros N BD I ST. pose proof I as [R LEN SLEN LK SG GR IT].
  destruct ST as [s b ts ac de i xs E|s b ts ac de i xs E|s b ts ac de i xs x rest E|s s' b ts ac de i xs E M|s s' b ts ac de i c q p E B M D|s s' b ts ac de i c r E M|s s' s'' b ts ac de i E M M2|s s' b ts ac de i how r E W M|s b1 x b2 ts ac de i c left got E L|s b ts ac de i c got E];
    cbn [sem bag qthreads accepted delivered] in *; destruct (LK _ _ _ E) as (k & p0 & F & L0).
  - destruct L0 as (D & xs' & X & LX). injection X as <-. constructor; cbn [sem bag qthreads accepted delivered]; auto.
    + now rewrite upd_length.
    + eapply (link_upd n _ s _ _ _ _ _ I E); [auto|]. exists k, p0. split; [exact F|split; auto].
    + rewrite !(total_at _ _ _ _ _ E). cbn. rewrite GR. cbn [qthreads]. lia.
    + unfold put_in, taken_out. cbn [accepted delivered qthreads bag]. same_items E IT (@Enqueue A xs, @QDone A []). perm.
  - destruct L0 as (D & xs' & X & LX). injection X as <-. constructor; cbn [sem bag qthreads accepted delivered]; auto.
    + now rewrite upd_length.
    + eapply (link_upd n _ s _ _ _ _ _ I E); [auto|]. exists k, p0. split; [exact F|]. split; [auto|]. now exists [].
    + rewrite !(total_at _ _ _ _ _ E). cbn. rewrite GR. cbn [qthreads]. lia.
    + unfold put_in, taken_out. cbn [accepted delivered qthreads bag]. same_items E IT (@Enqueue A xs, @Put A xs). rewrite Nat.sub_diag. cbn [firstn app]. perm.
  - destruct L0 as (D & d & X & LX). injection X as ->. constructor; cbn [sem bag qthreads accepted delivered]; auto.
    + now rewrite upd_length.
    + eapply (link_upd n _ s _ _ _ _ _ I E); [auto|]. exists k, p0. split; [exact F|]. split; [auto|]. exists (d ++ [x]). rewrite <- app_assoc. auto.
    + rewrite !(total_at _ _ _ _ _ E). cbn. rewrite GR. cbn [qthreads]. lia.
    + unfold put_in, taken_out. cbn [accepted delivered qthreads bag]. same_items E IT (@Enqueue A (d ++ x :: rest), @Put A rest).
      change (x :: rest) with ([x] ++ rest). rewrite (firstn_app_exact d). rewrite app_assoc, firstn_app_exact. change (x :: b) with ([x] ++ b). perm.
  - destruct L0 as (D & d & X & LX). rewrite app_nil_r in X. injection X as ->. rewrite app_nil_r in LX. destruct (starts_eff _ _ _ _ M) as (S1 & S2 & S3 & S4 & S5 & S6 & S7). constructor; cbn [sem bag qthreads accepted delivered]; auto.
    + eapply r_call; [exact R|]. eapply starts_call; eauto.
    + now rewrite upd_length.
    + congruence.
    + eapply (link_upd n _ s' _ _ _ _ _ I E); [exact S4|]. exists (Signal (zlen d)), (start (Signal (zlen d))). split; [exact S2|]. split; [reflexivity|]. eauto.
    + rewrite zlen_concat_cons, S6, SG. cbn [given]. lia.
    + rewrite !(total_at _ _ _ _ _ E), S5, GR. cbn. lia.
    + unfold put_in, taken_out. cbn [accepted delivered qthreads bag concat].
      pose proof (items_upd _ _ _ (@Enqueue A d, @Signalling A) d b [] IT E) as Q. cbn [app accepted delivered qthreads bag] in Q. apply Q. cbn [being_put in_hands snd]. cbn [length]. rewrite Nat.sub_0_r, firstn_all. perm.
  - destruct (moves_eff _ _ _ _ M) as ((k1 & q1 & M1 & M1d & M2) & M3 & M4 & M5 & M6). constructor; cbn [sem bag qthreads accepted delivered]; auto.
    + eapply r_step; [exact R|]. eapply moves_step; eauto.
    + congruence.
    + intros j c' q' F'. destruct (Nat.eq_dec j i) as [->|NE]; [|rewrite M3 by auto; eauto]. rewrite E in F'. injection F' as <- <-. exists k1, p. split; [exact M2|].
      assert (K : k1 = k) by (unfold thread_at in M1; congruence). subst k1. destruct B as [-> | ->]; cbn [link] in *; tauto.
    + congruence.
    + rewrite M4, GR. destruct p; try discriminate; cbn; lia.
  - destruct (moves_eff _ _ _ _ M) as ((k1 & q1 & M1 & M1d & M2) & M3 & M4 & M5 & M6). assert (K : k1 = k) by (unfold thread_at in M1; congruence). subst k1. destruct L0 as (D & xs & -> & ->).
    assert (R' : reach 0 n s') by (eapply r_step; [exact R|eapply moves_step; eauto]).
    assert (r = 0). { assert (Q : result_ok (Signal (zlen xs)) r) by (eapply (C84_results 0 n s'); [lia|exact N|exact R'|rewrite M5, SG; lia|exact M2]). exact Q. } subst r.
    constructor; cbn [sem bag qthreads accepted delivered]; auto.
    + now rewrite upd_length.
    + congruence.
    + eapply (link_upd n _ s' _ _ _ _ _ I E); [exact M3|]. exists (Signal (zlen xs)), (Done 0). split; [exact M2|]. cbn. auto.
    + congruence.
    + rewrite !(total_at _ _ _ _ _ E), M4, GR. cbn. lia.
    + unfold put_in, taken_out. cbn [accepted delivered qthreads bag]. same_items E IT (@Enqueue A xs, @QDone A []). perm.
  - exfalso. destruct (moves_eff _ _ _ _ M) as ((k1 & q1 & M1 & M1d & M3) & M4 & M5 & M6 & M7). assert (K : k1 = k) by (unfold thread_at in M1; congruence). subst k1. destruct L0 as (D & X & V). injection X as <-.
    assert (R' : reach 0 n s') by (eapply r_step; [exact R|eapply moves_step; eauto]).
    assert (Q : result_ok (Wait Never) 0) by (eapply (C84_results 0 n s'); [lia|exact N|exact R'|rewrite M6, SG; lia|exact M3]). cbn in Q. lia.
  - destruct (moves_eff _ _ _ _ M) as ((k1 & q1 & M1 & M1d & M2) & M3 & M4 & M5 & M6). assert (K : k1 = k) by (unfold thread_at in M1; congruence). subst k1. destruct L0 as (D & X & V). injection X as <-.
    assert (R' : reach 0 n s') by (eapply r_step; [exact R|eapply moves_step; eauto]).
    assert (Q : result_ok how r) by (eapply (C84_results 0 n s'); [lia|exact N|exact R'|rewrite M5, SG; lia|exact M2]).
    assert (R0 : 0 <= r). { destruct how as [| |t|max|max t|m]; cbn [qvalid] in V; try tauto; cbn [result_ok valid] in *; try destruct t; lia. }
    constructor; cbn [sem bag qthreads accepted delivered]; auto.
    + now rewrite upd_length.
    + congruence.
    + eapply (link_upd n _ s' _ _ _ _ _ I E); [exact M3|]. exists how, (Done r). split; [exact M2|]. cbn [link is_done]. split; [reflexivity|]. exists how. change (zlen (@nil A)) with 0. rewrite Z.add_0_r. auto.
    + congruence.
    + rewrite !(total_at _ _ _ _ _ E), M4, GR. cbn [in_hands to_take snd returned qthreads]. change (zlen (@nil A)) with 0. lia.
    + unfold put_in, taken_out. cbn [accepted delivered qthreads bag]. same_items E IT (@Dequeue A how, @Take A r []). perm.
  - destruct L0 as (D & how & -> & Q & L0). constructor; cbn [sem bag qthreads accepted delivered]; auto.
    + now rewrite upd_length.
    + eapply (link_upd n _ s _ _ _ _ _ I E); [auto|]. exists k, p0. split; [exact F|]. cbn [link]. split; [auto|]. exists how. rewrite zlen_app. change (zlen [x]) with 1. replace (left - 1 + (zlen got + 1)) with (left + zlen got) by lia. repeat split; auto. lia.
    + rewrite !(total_at _ _ _ _ _ E), GR. cbn [in_hands to_take snd qthreads]. rewrite zlen_app. change (zlen [x]) with 1. lia.
    + unfold put_in, taken_out. cbn [accepted delivered qthreads bag]. same_items E IT (@Dequeue A how, Take (left - 1) (got ++ [x])). change (x :: b2) with ([x] ++ b2). perm.
  - destruct L0 as (D & how & -> & Q & L0). constructor; cbn [sem bag qthreads accepted delivered]; auto.
    + now rewrite upd_length.
    + eapply (link_upd n _ s _ _ _ _ _ I E); [auto|]. exists k, p0. split; [exact F|]. cbn [link]. auto.
    + rewrite !(total_at _ _ _ _ _ E), GR, zlen_concat_cons. cbn [in_hands to_take snd qthreads]. change (zlen (@nil A)) with 0. lia.
    + unfold put_in, taken_out. cbn [accepted delivered qthreads bag concat].
      pose proof (items_upd _ _ _ (@Dequeue A how, QDone got) [] b got IT E) as Q2. cbn [app accepted delivered qthreads bag] in Q2. apply Q2. cbn [being_put in_hands snd app]. perm.
Qed.
Lemma qinv_call n a b : qinv n a -> qcalls a b -> qinv n b.
Proof.
  intros I ST. pose proof I as [R LEN SLEN LK SG GR IT]. destruct ST as [s b ts ac de i c0 got xs E V|s s' b ts ac de i c0 got how E V M]; cbn [sem bag qthreads accepted delivered] in *; destruct (LK _ _ _ E) as (k & p0 & F & D & L0).
  - constructor; cbn [sem bag qthreads accepted delivered]; auto.
    + now rewrite upd_length.
    + eapply (link_upd n _ s _ _ _ _ _ I E); [auto|]. exists k, p0. split; [exact F|]. split; [auto|]. eauto.
    + rewrite !(total_at _ _ _ _ _ E), GR. cbn. lia.
    + unfold put_in, taken_out. cbn [accepted delivered qthreads bag]. same_items E IT (@Enqueue A xs, @Enter A). destruct c0; perm.
  - destruct (starts_eff _ _ _ _ M) as (S1 & S2 & S3 & S4 & S5 & S6 & S7). assert (G0 : given how = 0) by (destruct how; cbn in V; tauto). constructor; cbn [sem bag qthreads accepted delivered]; auto.
    + eapply r_call; [exact R|]. eapply starts_call; eauto.
    + now rewrite upd_length.
    + congruence.
    + eapply (link_upd n _ s' _ _ _ _ _ I E); [exact S4|]. exists how, (start how). split; [exact S2|]. split; [destruct how; cbn in V; try tauto; reflexivity|]. auto.
    + lia.
    + rewrite !(total_at _ _ _ _ _ E), S5, GR. cbn. lia.
    + unfold put_in, taken_out. cbn [accepted delivered qthreads bag]. same_items E IT (@Dequeue A how, @Acquiring A). destruct c0; perm.
Qed.
Lemma accepted_mono (a b : qsys A) : qstep a b \/ qcalls a b -> zlen (concat (accepted a)) <= zlen (concat (accepted b)).
Proof. intros [S0|S0]; destruct S0; cbn [accepted]; try lia. rewrite zlen_concat_cons. pose proof (zlen_nonneg xs). lia. Qed.
Lemma qreach_inv n a : Z.of_nat n < 2 ^ 31 -> qreach n a -> zlen (concat (accepted a)) < 2 ^ 63 -> qinv n a.
Proof.
  intros N R. induction R as [|a b R IH ST|a b R IH ST]; intros BD.
  - apply qinv_init.
  - eapply qinv_step; eauto. apply IH. pose proof (accepted_mono a b (or_introl ST)). lia.
  - eapply qinv_call; eauto. apply IH. pose proof (accepted_mono a b (or_intror ST)). lia.
Qed.
End Queue.
