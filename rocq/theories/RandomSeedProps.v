(** C117: the generators that the constructor without arguments makes. *)

From Coq Require Import ZArith List Lia Bool Arith.
From Verif Require Import Base Bits RandomSpec RandomModel RandomProofs RandomSeedModel RandomSeedSpec RandomSeedProofs RandomSeedProofs2.
Import ListNotations.
Open Scope Z_scope.

(** However the threads are scheduled, the calls of seedUniquifier() return
    the first, second, ... value of one sequence, each once. *)
Theorem C117_sequence n w : reach n w -> forall k t u, nth_error (taken w) k = Some (t, u) -> nth_value (Z.of_nat k + 1) u.
Proof. intros R k t u H. exact (k_taken _ (ok_reach n w R) k (t, u) H). Qed.
(** The first 2^60 values of the sequence are different ... *)
Theorem C117_distinct_values j k u v : 0 <= j < k -> k - j < 2 ^ 60 -> nth_value j u -> nth_value k v -> u <> v.
Proof.
  intros J D A B E. subst v. pose proof (values_far 60 j k u u J ltac:(cbn; lia) A B ltac:(rewrite Z.sub_diag; apply Z.divide_0_r)) as L.
  change (Z.of_nat 60) with 60 in L. lia.
Qed.
(** ... and then they repeat. *)
Theorem C117_period j u v : 0 <= j -> nth_value j u -> nth_value (j + 2 ^ 60) v -> u = v.
Proof.
  intros J (A1 & A) (B1 & B). assert (D : (2 ^ 64 | v - u)).
  { pose proof (again 60 j J) as G. change (Z.of_nat 60) with 60 in G. change (60 + 4) with 64 in G.
    replace (v - u) with ((v - 8682522807148012 * 181783497276652981 ^ (j + 2 ^ 60)) + (8682522807148012 * 181783497276652981 ^ (j + 2 ^ 60) - 8682522807148012 * 181783497276652981 ^ j) - (u - 8682522807148012 * 181783497276652981 ^ j)) by ring.
    apply Z.divide_sub_r; [apply Z.divide_add_r|]; assumption. }
  destruct D as (q & Q). assert (q = 0) by (change (2 ^ 64) with (2 * 2 ^ 63) in Q; nia). lia.
Qed.
(** Among fewer than 2^44 generators, made by any threads, no two that read
    the same time start from the same seed. *)
Theorem C117_distinct_seeds n w : reach n w -> Z.of_nat (length (taken w)) <= 2 ^ 44 ->
  forall a b k1 u1 s1 k2 u2 s2 clock, nth_error (made w) a = Some (k1, u1, clock, s1) -> nth_error (made w) b = Some (k2, u2, clock, s2) -> a <> b -> s1 <> s2.
Proof.
  intros R L.
  assert (MAIN : forall k1 u1 s1 k2 u2 s2 clock, In (k1, u1, clock, s1) (made w) -> In (k2, u2, clock, s2) (made w) -> (k1 < k2)%nat -> s1 <> s2).
  { intros k1 u1 s1 k2 u2 s2 clock A B LT E. assert (K := ok_reach n w R). destruct (k_made _ K _ _ _ _ A) as (-> & t1 & T1). destruct (k_made _ K _ _ _ _ B) as (-> & t2 & T2).
    apply seed_mod in E. assert (L2 : (k2 < length (taken w))%nat) by (apply nth_error_Some; congruence).
    pose proof (values_far 44 (Z.of_nat k1 + 1) (Z.of_nat k2 + 1) u1 u2 ltac:(lia) ltac:(cbn; lia) (k_taken _ K k1 _ T1) (k_taken _ K k2 _ T2)) as V.
    change (Z.of_nat 44) with 44 in V. change (44 + 4) with 48 in V. specialize (V E). lia. }
  intros a b k1 u1 s1 k2 u2 s2 clock A B N. assert (K := ok_reach n w R).
  assert (NK : k1 <> k2).
  { intros ->. apply N. assert (ND := k_once _ K). rewrite NoDup_nth_error in ND. apply ND; [rewrite map_length; apply nth_error_Some; congruence|].
    rewrite (map_nth_error _ _ _ A), (map_nth_error _ _ _ B). reflexivity. }
  apply nth_error_In in A, B. destruct (Nat.lt_gt_cases k1 k2) as [C _]. destruct (C NK) as [LT|LT]; [exact (MAIN _ _ _ _ _ _ _ A B LT)|]. intros E. symmetry in E. exact (MAIN _ _ _ _ _ _ _ B A LT E).
Qed.
(** The bound is sharp: at one time, values 2^44 apart give the same seed. *)
Theorem C117_seeds_repeat j u v clock : 0 <= j -> nth_value j u -> nth_value (j + 2 ^ 44) v -> seed_from u clock = seed_from v clock.
Proof.
  intros J (_ & A) (_ & B). apply seed_mod. pose proof (again 44 j J) as G. change (Z.of_nat 44) with 44 in G. change (44 + 4) with 48 in G.
  assert (P : (2 ^ 48 | 2 ^ 64)) by (exists (2 ^ 16); reflexivity).
  replace (v - u) with ((v - 8682522807148012 * 181783497276652981 ^ (j + 2 ^ 44)) + (8682522807148012 * 181783497276652981 ^ (j + 2 ^ 44) - 8682522807148012 * 181783497276652981 ^ j) - (u - 8682522807148012 * 181783497276652981 ^ j)) by ring.
  apply Z.divide_sub_r; [apply Z.divide_add_r|]; [exact (Z.divide_trans _ _ _ P B)|exact G|exact (Z.divide_trans _ _ _ P A)].
Qed.
(** Generators with different seeds differ in one of their first two
    nextInt(): the two numbers determine the seed. *)
Theorem C117_different_numbers s1 s2 a1 x1 b1 y1 a2 x2 b2 y2 : 0 <= s1 < 2 ^ 48 -> 0 <= s2 < 2 ^ 48 -> s1 <> s2 ->
  nextInt HW s1 = Ok (a1, x1) -> nextInt HW x1 = Ok (b1, y1) -> nextInt HW s2 = Ok (a2, x2) -> nextInt HW x2 = Ok (b2, y2) -> (a1, b1) <> (a2, b2).
Proof.
  unfold nextInt. intros S1 S2 N A1 B1 A2 B2 E. rewrite next_ok in A1, A2 by lia. injection A1 as <- <-. injection A2 as <- <-. rewrite next_ok in B1, B2 by lia. injection B1 as <- _. injection B2 as <- _.
  injection E as E1 E2. apply N. exact (two_numbers s1 s2 S1 S2 E1 E2).
Qed.
(** Every seed is a state of the generator. *)
Theorem C117_seed_range n w : reach n w -> forall k u clock s, In (k, u, clock, s) (made w) -> 0 <= s < 2 ^ 48.
Proof. intros R k u clock s I. destruct (k_made _ (ok_reach n w R) _ _ _ _ I) as (-> & _). unfold seed_from. rewrite scramble_ok. apply Z.mod_pos_bound. reflexivity. Qed.
(** Some call always returns: with [n] threads, exchanges fail at most [n] - 1
    times for each call that returned. *)
Theorem C117_lock_free n w : reach n w -> (failed w <= (n - 1) * length (taken w))%nat.
Proof. intros R. pose proof (fail_bound n w R). lia. Qed.
(** No thread is ever stuck. *)
Theorem C117_never_stuck n w t : reach n w -> (t < n)%nat -> exists w', step t w w'.
Proof.
  intros R T. destruct (at_ w t) as [| |c|k u] eqn:A.
  - eexists. now apply s_enter.
  - eexists. now apply s_load.
  - destruct (Z.eq_dec (field w) c) as [E|E]; [|eexists; exact (s_again t w c A E)].
    destruct (next_value _ _ (Nat2Z.is_nonneg _) (k_field _ (ok_reach n w R))) as (v & V & _). rewrite E in V. eexists. exact (s_exchange t w c v A E V).
  - eexists. exact (s_seed t w k u 0 A).
Qed.
(** By ISO C++ the first call overflows: the program that makes a generator
    without a seed is undefined. *)
Theorem C117_iso_refuted : next_unique ISO FIRST = UB SignedOverflow.
Proof. unfold next_unique, smul. rewrite sres_ISO_ub; [reflexivity|]. unfold in_s, smin, smax, FIRST. intros [_ H]. revert H. vm_compute. intros H. now apply H. Qed.

(** Two threads load the same value; one exchange fails and is repeated; both
    read the same time. *)
Definition play (l : list (nat * Z)) : world :=
  fold_left (fun w (x : nat * Z) => let (t, clock) := x in
    match at_ w t with
    | Outside => mkW (field w) (at_set (at_ w) t Trying) (taken w) (made w) (failed w)
    | Trying => mkW (field w) (at_set (at_ w) t (Loaded (field w))) (taken w) (made w) (failed w)
    | Loaded c => if field w =? c then match next_unique HW c with Ok u => mkW u (at_set (at_ w) t (Seeding (length (taken w)) u)) (taken w ++ [(t, u)]) (made w) (failed w) | _ => w end
                  else mkW (field w) (at_set (at_ w) t Trying) (taken w) (made w) (S (failed w))
    | Seeding k u => mkW (field w) (at_set (at_ w) t Outside) (taken w) (made w ++ [(k, u, clock, seed_from u clock)]) (failed w)
    end) l start.
Lemma play_reach n l : Forall (fun x => (fst x < n)%nat) l -> reach n (play l).
Proof.
  unfold play. assert (H : reach n start) by constructor. revert H. generalize start. induction l as [|[t clock] l IH]; intros w H F; [exact H|]. inversion F as [|? ? F1 F2]; subst. cbn [fst] in F1. cbn [fold_left]. apply IH; [|exact F2].
  destruct (at_ w t) as [| |c|k u] eqn:A.
  - apply (reach_step n w t); [exact H|exact F1|now apply s_enter].
  - apply (reach_step n w t); [exact H|exact F1|now apply s_load].
  - destruct (Z.eqb_spec (field w) c) as [E|E].
    + destruct (next_unique HW c) as [u| | |] eqn:U; try exact H. apply (reach_step n w t); [exact H|exact F1|now apply (s_exchange t w c u)].
    + apply (reach_step n w t); [exact H|exact F1|now apply (s_again t w c)].
  - apply (reach_step n w t); [exact H|exact F1|now apply (s_seed t w k u clock)].
Qed.
Definition example : list (nat * Z) := map (fun t => (t, 1479300000000000000)) [0; 1; 0; 1; 1; 0; 0; 0; 1; 0]%nat.
Example C117_ex : reach 2 (play example) /\ failed (play example) = 1%nat /\ map fst (taken (play example)) = [1; 0]%nat /\
  map (fun g => snd g) (made (play example)) = [256052426786225; 102843380539617].
Proof. split; [apply play_reach; repeat constructor|]. vm_compute. auto. Qed.
Print Assumptions C117_sequence. Print Assumptions C117_distinct_values. Print Assumptions C117_period. Print Assumptions C117_distinct_seeds.
Print Assumptions C117_seeds_repeat. Print Assumptions C117_different_numbers. Print Assumptions C117_seed_range. Print Assumptions C117_lock_free.
Print Assumptions C117_never_stuck. Print Assumptions C117_iso_refuted.
