(** Model of nextGaussian and of what setSeed does to it:
    /repo/library/Java/Util/Random/Random.cpp:204-207, 234-250, 257-260 and
    Random.hpp:46-47.

    One generator used by one thread (the two fields are plain fields);
    gcc/x86-64, operands of + evaluated from left to right, as in C52.
    [double] is the binary64 of Coq's SpecFloat.  sqrt(-2 * log(s) / s) is an
    arbitrary function [scale] of s: nothing is assumed about libm. *)

From Coq Require Import ZArith List Bool Floats.SpecFloat.
From Verif Require Import Base RandomSpec RandomModel.
Import ListNotations.
Open Scope Z_scope.

Definition dmul : spec_float -> spec_float -> spec_float := SFmul 53 1024.
Definition dadd : spec_float -> spec_float -> spec_float := SFadd 53 1024.
Definition dsub : spec_float -> spec_float -> spec_float := SFsub 53 1024.
(** 1 and 2; Random.hpp: DOUBLE_UNIT, 2^-53 *)
Definition one : spec_float := S754_finite false 4503599627370496 (-52).
Definition two : spec_float := S754_finite false 4503599627370496 (-51).
Definition DOUBLE_UNIT : spec_float := S754_finite false 4503599627370496 (-105).
(** Conversion of a long *)
Definition of_long (n : Z) : spec_float := binary_normalize 53 1024 n 0 false.

(** Random.cpp:205, 241-242: 2 * nextDouble() - 1, [n] being the numerator *)
Definition centred (n : Z) : spec_float := dsub (dmul two (dmul (of_long n) DOUBLE_UNIT)) one.
(** Random.cpp:243 *)
Definition squareSum (v1 v2 : spec_float) : spec_float := dadd (dmul v1 v1) (dmul v2 v2).
(** Random.cpp:244 *)
Definition rejected (s : spec_float) : bool := SFleb one s || SFeqb s (S754_zero false).
(** Random.cpp:240-244: the two values, the sum and the seed field *)
Fixpoint polar (fuel : nat) (seed : Z) : outcome (spec_float * spec_float * spec_float * Z) :=
  match fuel with
  | O => OutOfFuel
  | S f =>
    let* ' (n1, s1) := nextDouble HW true seed in
    let* ' (n2, s2) := nextDouble HW true s1 in
    let v1 := centred n1 in
    let v2 := centred n2 in
    let s := squareSum v1 v2 in
    if rejected s then polar f s2 else Ok (v1, v2, s, s2)
  end.

Section Gauss.
Variable scale : spec_float -> spec_float.
(** Random.hpp:40, 46-47; [None]: nextGaussianNumber was never written *)
Record generator := mkG { seed_ : Z; have : bool; number : option spec_float }.
(** Random.cpp:67-69, Random.hpp:46 *)
Definition new_generator (seed : Z) : generator := mkG (initialScramble seed) false None.
(** Random.cpp:234-250 *)
Definition nextGaussian (fuel : nat) (g : generator) : outcome (spec_float * generator) :=
  if have g then
    match number g with
    | Some x => Ok (x, mkG (seed_ g) false (number g))
    | None => UB Uninitialised
    end
  else
    let* ' (v1, v2, s, seed') := polar fuel (seed_ g) in
    let multiplier := scale s in
    Ok (dmul v1 multiplier, mkG seed' true (Some (dmul v2 multiplier))).
(** The calls of C52, and nextGaussian; 257-260: setSeed forgets the second number *)
Inductive call : Type := Plain (c : rcall) | NextGaussian.
Inductive answer : Type := Other (a : ranswer) | Gaussian (x : spec_float).
Definition invoke (fuel : nat) (g : generator) (c : call) : outcome (answer * generator) :=
  match c with
  | Plain c =>
    let* ' (a, s) := rinvoke HW true fuel (seed_ g) c in
    Ok (Other a, mkG s (match c with SetSeed _ => false | _ => have g end) (number g))
  | NextGaussian => let* ' (x, g') := nextGaussian fuel g in Ok (Gaussian x, g')
  end.
Fixpoint invoke_all (fuel : nat) (g : generator) (cs : list call) : outcome (list answer * generator) :=
  match cs with
  | [] => Ok ([], g)
  | c :: r =>
    let* ' (a, g1) := invoke fuel g c in
    let* ' (l, g2) := invoke_all fuel g1 r in
    Ok (a :: l, g2)
  end.
End Gauss.
