(** What java.lang.Math says about floating point numbers, independently of
    how the code computes it. *)

From Coq Require Import ZArith List Bool.
From Verif Require Import Base Ieee FloatBitsSpec.
Open Scope Z_scope.

(** Math.abs: the sign removed, of -0.0 too. *)
Definition java_abs (x : fl) : fl := match x with NaN => NaN | Inf _ => Inf false | Fin _ v => Fin false v end.
(** Math.copySign, the sign of NaN taken as positive *)
Definition java_copySign (x s : fl) : fl := match s with Inf true | Fin true _ => neg (java_abs x) | _ => java_abs x end.
(** Math.signum *)
Definition java_signum (F : fmt) (x : fl) : fl :=
  match x with NaN => NaN | Inf n => Fin n (one F) | Fin n v => if v =? 0 then x else Fin n (one F) end.
(** Math.max and Math.min: NaN if either is NaN; -0.0 is less than 0.0. *)
Definition java_max (a b r : fl) : Prop :=
  ((a = NaN \/ b = NaN) /\ r = NaN) \/ (a <> NaN /\ b <> NaN /\ (r = a \/ r = b) /\ ~ java_lt r a /\ ~ java_lt r b).
Definition java_min (a b r : fl) : Prop :=
  ((a = NaN \/ b = NaN) /\ r = NaN) \/ (a <> NaN /\ b <> NaN /\ (r = a \/ r = b) /\ ~ java_lt a r /\ ~ java_lt b r).

(** Math.getExponent: the exponent of the leading digit; one more than the
    largest exponent for NaN and infinities, one less than the least normal
    exponent for zero and subnormal numbers. *)
Definition java_exponent (F : fmt) (x : fl) (r : Z) : Prop :=
  match x with
  | Fin _ v => if v <? 2 ^ mbits F then r = - bias F
               else 0 <= one_exp F + r /\ 2 ^ (one_exp F + r) <= v < 2 ^ (one_exp F + r + 1)
  | _ => r = bias F + 1
  end.
(** Math.ulp: the weight of the last of the [mbits + 1] digits. *)
Definition java_ulp (F : fmt) (x r : fl) : Prop :=
  match x with
  | NaN => r = NaN
  | Inf _ => r = Inf false
  | Fin _ v => if v <? 2 ^ (mbits F + 1) then r = Fin false 1
               else exists k, 0 <= k /\ r = Fin false (2 ^ k) /\ 2 ^ (k + mbits F) <= v < 2 ^ (k + mbits F + 1)
  end.
(** [y] is the least number above [x]; a zero reached from below is -0.0. *)
Definition adjacent_above (F : fmt) (x y : fl) : Prop :=
  value F y /\ flt x y = true /\ (forall z, value F z -> flt x z = true -> fle y z = true) /\ y <> Fin false 0.
Definition adjacent_below (F : fmt) (x y : fl) : Prop :=
  value F y /\ flt y x = true /\ (forall z, value F z -> flt z x = true -> fle z y = true) /\ y <> Fin true 0.

(** The integers of [w] bits nearest to an integer (Java's saturation). *)
Definition clamp (w z : Z) : Z := Z.max (smin w) (Z.min z (smax w)).
(** Math.round: the floor of the number plus one half. *)
Definition java_round (F : fmt) (w : Z) (x : fl) (r : Z) : Prop :=
  match x with
  | NaN => r = 0
  | Inf n => r = if n then smin w else smax w
  | Fin n v => exists z, r = clamp w z /\ one F * (2 * z - 1) <= 2 * signed n v < one F * (2 * z + 1)
  end.
(** (int) x, (long) x: towards zero. *)
Definition java_cast (F : fmt) (w : Z) (x : fl) (r : Z) : Prop :=
  match x with
  | NaN => r = 0
  | Inf n => r = if n then smin w else smax w
  | Fin n v => exists z, r = clamp w (signed n z) /\ one F * z <= v < one F * (z + 1)
  end.
(** Math.IEEEremainder of finite numbers, the divisor not zero: dividend minus
    the divisor times the integer nearest to the quotient, even in a tie. *)
Definition java_remainder (a b r : Z) : Prop :=
  exists n, r = a - n * b /\ (2 * Z.abs r < Z.abs b \/ (2 * Z.abs r = Z.abs b /\ Z.even n = true)).
