(** IEEE 754 binary floating point values and operations, and the C library
    functions on them, by their contract (Clib section of DESIGN.md).

    The magnitude of a finite number is an integer count of the least
    positive number of the format, so a double [Fin false v] is
    [v * 2^-1074] and a float [v * 2^-149].  The rounding mode is to nearest,
    ties to even. *)

From Coq Require Import ZArith List Bool.
From Verif Require Import Base.
Open Scope Z_scope.

(** A format: bits of the fraction field and of the exponent field. *)
Record fmt : Type := mkF { mbits : Z; ebits : Z }.
Definition F64 : fmt := mkF 52 11.
Definition F32 : fmt := mkF 23 8.
Definition bias (F : fmt) : Z := 2 ^ (ebits F - 1) - 1.
(** The number 1 is [2 ^ one_exp] least numbers: 2^1074 and 2^149. *)
Definition one_exp (F : fmt) : Z := bias F + mbits F - 1.
Definition one (F : fmt) : Z := 2 ^ one_exp F.
(** The largest finite number. *)
Definition maxv (F : fmt) : Z := (2 ^ (mbits F + 1) - 1) * 2 ^ (2 ^ ebits F - 3).

Inductive fl : Type := NaN | Inf (neg : bool) | Fin (neg : bool) (v : Z).

(** [v] has at most [mbits + 1] significant bits. *)
Definition excess (F : fmt) (v : Z) : Z := Z.max 0 (Z.log2 v - mbits F).
Definition fits (F : fmt) (v : Z) : Prop := 0 <= v <= maxv F /\ v mod 2 ^ excess F v = 0.
Definition value (F : fmt) (x : fl) : Prop := match x with Fin _ v => fits F v | _ => True end.

(** ** Rounding *)
(** [a / d] to the nearest integer, ties to even *)
Definition rne (a d : Z) : Z :=
  let q := a / d in
  let r := a mod d in
  if 2 * r <? d then q else if d <? 2 * r then q + 1 else if Z.even q then q else q + 1.
(** the number [a / 2^k] (in least numbers, [a >= 0], [k >= 0]) rounded to the format *)
Definition rounded (F : fmt) (neg : bool) (a k : Z) : fl :=
  let e := Z.max 0 (Z.log2 a - k - mbits F) in
  let v := rne a (2 ^ (e + k)) * 2 ^ e in
  if maxv F <? v then Inf neg else Fin neg v.

(** ** Arithmetic and comparison *)
Definition neg (x : fl) : fl := match x with NaN => NaN | Inf n => Inf (negb n) | Fin n v => Fin (negb n) v end.
Definition signed (n : bool) (v : Z) : Z := if n then - v else v.
Definition of_int (F : fmt) (z : Z) : fl := rounded F (z <? 0) (Z.abs z * one F) 0.
Definition add (F : fmt) (a b : fl) : fl :=
  match a, b with
  | NaN, _ | _, NaN => NaN
  | Inf n, Inf n' => if Bool.eqb n n' then Inf n else NaN
  | Inf n, _ | _, Inf n => Inf n
  | Fin n v, Fin n' v' =>
    let s := signed n v + signed n' v' in
    if s =? 0 then Fin (n && n') 0 else rounded F (s <? 0) (Z.abs s) 0
  end.
Definition sub (F : fmt) (a b : fl) : fl := add F a (neg b).
Definition mul (F : fmt) (a b : fl) : fl :=
  match a, b with
  | NaN, _ | _, NaN => NaN
  | Inf n, Inf n' => Inf (xorb n n')
  | Inf n, Fin n' v | Fin n v, Inf n' => if v =? 0 then NaN else Inf (xorb n n')
  | Fin n v, Fin n' v' => rounded F (xorb n n') (v * v') (one_exp F)
  end.
(** [None]: unordered *)
Definition fcmp (a b : fl) : option comparison :=
  match a, b with
  | NaN, _ | _, NaN => None
  | Inf n, Inf n' => Some (if Bool.eqb n n' then Eq else if n then Lt else Gt)
  | Inf n, Fin _ _ => Some (if n then Lt else Gt)
  | Fin _ _, Inf n => Some (if n then Gt else Lt)
  | Fin n v, Fin n' v' => Some (signed n v ?= signed n' v')
  end.
Definition feq (a b : fl) : bool := match fcmp a b with Some Eq => true | _ => false end.
Definition flt (a b : fl) : bool := match fcmp a b with Some Lt => true | _ => false end.
Definition fle (a b : fl) : bool := match fcmp a b with Some Lt | Some Eq => true | _ => false end.
Definition fge (a b : fl) : bool := fle b a.
Definition fgt (a b : fl) : bool := flt b a.
Definition zero : fl := Fin false 0.

(** ** Library functions *)
Definition fabs (x : fl) : fl := match x with NaN => NaN | Inf _ => Inf false | Fin _ v => Fin false v end.
Definition copysign (x y : fl) : fl :=
  let n := match y with NaN => false | Inf n | Fin n _ => n end in
  match x with NaN => NaN | Inf _ => Inf n | Fin _ v => Fin n v end.
Definition floor (F : fmt) (x : fl) : fl :=
  match x with
  | Fin n v => Fin n (if n then - ((- v) / one F) * one F else v / one F * one F)
  | _ => x
  end.
(** conversion to a signed integer of [w] bits: truncation; out of range it is
    undefined (C++11 [conv.fpint]) *)
Definition to_int (F : fmt) (w : Z) (x : fl) : outcome Z :=
  match x with
  | Fin n v => let z := signed n (v / one F) in if in_sb w z then Ok z else UB Precondition
  | _ => UB Precondition
  end.
(** [pow(2, e)] for an integral [e]: exact whenever representable *)
Definition pow2 (F : fmt) (e : Z) : fl :=
  let k := one_exp F + e in if 0 <=? k then rounded F false (2 ^ k) 0 else rounded F false 1 (- k).
