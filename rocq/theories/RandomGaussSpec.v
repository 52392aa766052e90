(** nextGaussian as documented: candidates are taken from the sequence of
    states four at a time, until one is accepted; it gives two numbers. *)
From Coq Require Import ZArith List Bool Floats.SpecFloat.
From Verif Require Import Base RandomSpec.
Import ListNotations.
Open Scope Z_scope.

(** The numerator over 2^53 of the double drawn in state [x] *)
Definition drawn (x : Z) : Z := high 26 (lcg x) * 2 ^ 27 + high 27 (lcg (lcg x)).
Notation mul := (SFmul 53 1024). Notation add := (SFadd 53 1024). Notation sub := (SFsub 53 1024).
Definition f1 : spec_float := S754_finite false (2 ^ 52) (-52).
Definition f2 : spec_float := S754_finite false (2 ^ 52) (-51).
(** From [0, 1) to [-1, 1) *)
Definition spread (n : Z) : spec_float := sub (mul f2 (mul (binary_normalize 53 1024 n 0 false) (S754_finite false (2 ^ 52) (-105)))) f1.
(** The [i]-th candidate from state [x]; how far it is from the centre, squared *)
Definition cand1 (x : Z) (i : nat) : spec_float := spread (drawn (state_after (4 * i) x)).
Definition cand2 (x : Z) (i : nat) : spec_float := spread (drawn (state_after (4 * i + 2) x)).
Definition dist2 (x : Z) (i : nat) : spec_float := add (mul (cand1 x i) (cand1 x i)) (mul (cand2 x i) (cand2 x i)).
Definition inside (s : spec_float) : Prop := SFleb f1 s = false /\ SFeqb s (S754_zero false) = false.
(** [i] is the first candidate inside *)
Definition first_inside (x : Z) (i : nat) : Prop := inside (dist2 x i) /\ forall j, (j < i)%nat -> ~ inside (dist2 x j).
