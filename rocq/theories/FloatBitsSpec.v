(** The IEEE 754 interchange layout: what the bits of a float or double mean. *)

From Coq Require Import ZArith List Bool.
From Verif Require Import Base Ieee.
Open Scope Z_scope.

(** sign, exponent field and fraction field of a bit pattern *)
Definition sign_bit (F : fmt) (b : Z) : bool := Z.testbit b (ebits F + mbits F).
Definition exponent_field (F : fmt) (b : Z) : Z := (b / 2 ^ mbits F) mod 2 ^ ebits F.
Definition fraction_field (F : fmt) (b : Z) : Z := b mod 2 ^ mbits F.
(** Exponent field 0: the fraction counts least numbers.  All ones: infinity
    or NaN.  Otherwise 1.fraction times a power of two. *)
Definition denoted (F : fmt) (b : Z) : fl :=
  let s := sign_bit F b in
  let e := exponent_field F b in
  let f := fraction_field F b in
  if e =? 0 then Fin s f
  else if e =? 2 ^ ebits F - 1 then (if f =? 0 then Inf s else NaN)
  else Fin s ((2 ^ mbits F + f) * 2 ^ (e - 1)).
(** Width of the format and the largest bit pattern without sign. *)
Definition width (F : fmt) : Z := 1 + ebits F + mbits F.

(** java.lang.Double.doubleToLongBits (Float.floatToIntBits): the signed
    integer whose two's complement is the layout of [x]; one value for NaN. *)
Definition java_bits (F : fmt) (x : fl) (r : Z) : Prop :=
  in_s (width F) r /\ denoted F (uwrap (width F) r) = x /\
  (x = NaN -> r = (2 ^ ebits F - 1) * 2 ^ mbits F + 2 ^ (mbits F - 1)).

(** The total order of Double.compare: -0.0 below 0.0, NaN above everything. *)
Definition java_lt (a b : fl) : Prop :=
  match a, b with
  | NaN, _ => False
  | _, NaN => True
  | Fin true 0, Fin false 0 => True
  | _, _ => fcmp a b = Some Lt
  end.
Definition java_compare (a b : fl) (r : Z) : Prop := (java_lt a b /\ r = -1) \/ (java_lt b a /\ r = 1) \/ (a = b /\ r = 0).

(** The digits of a number the conversion to bits looks at: those from
    [2^-(mbits+1)] up, without the digit for 1/2 when the number is 1 or
    more. *)
Definition seen (F : fmt) (v : Z) : Z :=
  let k := one_exp F - 1 - mbits F in
  let w := v / 2 ^ k * 2 ^ k in
  if (one F <=? v) && Z.testbit v (one_exp F - 1) then w - 2 ^ (one_exp F - 1) else w.

(** The positive numbers whose digits are all seen: below 2^30, a multiple of
    [2^-(mbits+1)], and from 1 on with an even number of halves. *)
Definition faithful (F : fmt) (v : Z) : Prop :=
  0 < v < 2 ^ 30 * one F /\ fits F v /\ (2 ^ (one_exp F - 1 - mbits F) | v) /\
  (one F <= v -> Z.even (v / 2 ^ (one_exp F - 1)) = true).
Definition faithful_value (F : fmt) (x : fl) : Prop := match x with Fin _ v => v = 0 \/ faithful F v | _ => True end.
