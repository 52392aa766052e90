From Coq Require Import ZArith List Bool Lia Floats.SpecFloat.
From Verif Require Import Base Bits RandomSpec RandomModel RandomProofs RandomProps RandomGaussModel RandomGaussSpec.
Import ListNotations.
Open Scope Z_scope.

Lemma state_add n k x : state_after (n + k) x = state_after k (state_after n x).
Proof. revert x. induction n as [|n IH]; intros x; [reflexivity|]. cbn [state_after Nat.add]. apply IH. Qed.
Lemma double_ok x : nextDouble HW true x = Ok (drawn x, lcg (lcg x)).
Proof.
  unfold nextDouble, two_draws. rewrite next_ok by lia. cbn [bind]. rewrite next_ok by lia. cbn [bind sshl]. change (27 mod 64) with 27.
  pose proof (pow_split 26 (lcg x) ltac:(lia) (lcg_ok _)) as A. pose proof (pow_split 27 (lcg (lcg x)) ltac:(lia) (lcg_ok _)) as B.
  rewrite Z.shiftl_mul_pow2 by lia. change (2 ^ 26) with 67108864 in A. unfold drawn. change (2 ^ 27) with 134217728 in *.
  rewrite wrap_id by (try lia; unfold in_s, smin, smax; lia).
  unfold sadd. rewrite sres_ok by (unfold in_s, smin, smax; lia). reflexivity.
Qed.
Lemma rejected_spec s : rejected s = false <-> inside s.
Proof. unfold rejected, inside. change one with f1. rewrite orb_false_iff. reflexivity. Qed.
Lemma dist_first x : squareSum (centred (drawn x)) (centred (drawn (lcg (lcg x)))) = dist2 x 0.
Proof. reflexivity. Qed.
Lemma shift1 x i : cand1 (state_after 4 x) i = cand1 x (S i).
Proof. unfold cand1. rewrite <- state_add. do 3 f_equal. lia. Qed.
Lemma shift2 x i : cand2 (state_after 4 x) i = cand2 x (S i).
Proof. unfold cand2. rewrite <- state_add. do 3 f_equal. lia. Qed.
Lemma shiftd x i : dist2 (state_after 4 x) i = dist2 x (S i).
Proof. unfold dist2. now rewrite shift1, shift2. Qed.

Lemma polar_ok : forall i x fuel, first_inside x i -> (i < fuel)%nat -> polar fuel x = Ok (cand1 x i, cand2 x i, dist2 x i, state_after (4 * i + 4) x).
Proof.
  induction i as [|i IH]; intros x fuel (I & N) L; (destruct fuel as [|fuel]; [lia|]); cbn [polar]; rewrite double_ok; cbn [bind]; rewrite double_ok; cbn [bind]; rewrite dist_first.
  - apply rejected_spec in I. rewrite I. reflexivity.
  - destruct (rejected (dist2 x 0)) eqn:R; [|exfalso; apply (N 0%nat); [lia|now apply rejected_spec]].
    change (lcg (lcg (lcg (lcg x)))) with (state_after 4 x). rewrite (IH (state_after 4 x) fuel); [|split|lia].
    + rewrite shift1, shift2, shiftd, <- state_add. do 2 f_equal. f_equal. lia.
    + now rewrite shiftd.
    + intros j J. rewrite shiftd. apply N. lia.
Qed.

(** The two low bits of the states run through a cycle of four *)
Lemma low x : lcg x mod 4 = (x + 3) mod 4.
Proof.
  unfold lcg. pose proof (Z.div_mod (x * 25214903917 + 11) (2 ^ 48) ltac:(lia)) as D. set (y := (x * 25214903917 + 11) mod 2 ^ 48) in *. set (q := (x * 25214903917 + 11) / 2 ^ 48) in *.
  change (2 ^ 48) with 281474976710656 in D. replace y with (x + 3 + (x * 6303725979 + 2 - q * 70368744177664) * 4) by lia. apply Z_mod_plus_full.
Qed.
Lemma low_after n : forall x, state_after n x mod 4 = (x + 3 * Z.of_nat n) mod 4.
Proof.
  induction n as [|n IH]; intros x; cbn [state_after]; [now rewrite Z.add_0_r|]. rewrite IH, Zplus_mod, low, <- Zplus_mod. f_equal. lia.
Qed.
Lemma reach4 x t : state_ok x -> state_ok t -> x mod 4 = t mod 4 -> exists i, state_after (4 * i) x = t.
Proof.
  intros X T E. destruct (reach x t X T) as (n & N). pose proof (low_after n x) as L. rewrite N, <- E in L.
  assert (Z.of_nat n mod 4 = 0).
  { pose proof (Z.div_mod x 4 ltac:(lia)). pose proof (Z.div_mod (x + 3 * Z.of_nat n) 4 ltac:(lia)). pose proof (Z.div_mod (Z.of_nat n) 4 ltac:(lia)).
    pose proof (Z.mod_pos_bound (Z.of_nat n) 4 ltac:(lia)). lia. }
  exists (Z.to_nat (Z.of_nat n / 4)). rewrite <- N. f_equal. pose proof (Z.div_mod (Z.of_nat n) 4 ltac:(lia)). lia.
Qed.

Lemma inside_dec s : {inside s} + {~ inside s}.
Proof. destruct (rejected s) eqn:R; [right; intros I; apply rejected_spec in I; congruence|left; now apply rejected_spec]. Qed.
Lemma dist_at x i : dist2 x i = dist2 (state_after (4 * i) x) 0.
Proof. unfold dist2, cand1, cand2. rewrite (state_add (4 * i) 2). reflexivity. Qed.
Lemma some_inside x : state_ok x -> exists i, inside (dist2 x i).
Proof.
  intros X. assert (R : exists t, state_ok t /\ x mod 4 = t mod 4 /\ inside (dist2 t 0)).
  { assert (C : x mod 4 = 0 \/ x mod 4 = 1 \/ x mod 4 = 2 \/ x mod 4 = 3) by (pose proof (Z.mod_pos_bound x 4 ltac:(lia)); lia). unfold state_ok.
    destruct C as [->|[->|[->| ->]]]; [exists 4000012|exists 4000013|exists 16000050|exists 8000027]; (split; [lia|]; split; [reflexivity|]; vm_compute; auto). }
  destruct R as (t & T & E & I). destruct (reach4 x t X T E) as (i & N). exists i. rewrite dist_at, N. exact I.
Qed.
Lemma least (P : nat -> Prop) (D : forall i, {P i} + {~ P i}) : forall n, P n -> exists i, P i /\ forall j, (j < i)%nat -> ~ P j.
Proof.
  induction n as [n IH] using (well_founded_induction Wf_nat.lt_wf). intros H.
  destruct (existsb (fun j => if D j then true else false) (seq 0 n)) eqn:E.
  - apply existsb_exists in E as (j & J & Q). apply in_seq in J. destruct (D j) as [Y|Y]; [|discriminate]. apply (IH j); [lia|exact Y].
  - exists n. split; [exact H|]. intros j J Q. assert (X : existsb (fun j => if D j then true else false) (seq 0 n) = true); [|congruence].
    apply existsb_exists. exists j. split; [apply in_seq; lia|]. now destruct (D j).
Qed.
Lemma has_first x : state_ok x -> exists i, first_inside x i.
Proof. intros X. destruct (some_inside x X) as (n & N). exact (least (fun i => inside (dist2 x i)) (fun i => inside_dec _) n N). Qed.
Lemma after_ok n : forall x, state_ok x -> state_ok (state_after n x).
Proof. induction n as [|n IH]; intros x X; [exact X|]. cbn [state_after]. apply IH. apply lcg_ok. Qed.
