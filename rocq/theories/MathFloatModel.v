(** The floating point functions of /repo/library/Java/Lang/Math/Math.cpp and
    the narrowing conversions of Double.cpp and Float.cpp.  The functions that
    only forward to the C library (sin, exp, hypot, rint, floor, scalbn, ...)
    are not modelled. *)

From Coq Require Import ZArith List Bool.
From Verif Require Import Base Ieee FloatBitsModel.
Open Scope Z_scope.

(** ** C library functions, by their contract *)
(** frexp: the mantissa in [1/2, 1) as a double, and the exponent *)
Definition frexp (F : fmt) (n : bool) (v : Z) : fl * Z :=
  let k := Z.log2 v + 1 in
  let d := one_exp F64 - k in
  (Fin n (if 0 <=? d then v * 2 ^ d else v / 2 ^ (- d)), k - one_exp F).
(** the next numbers in magnitude, of the numbers of the format *)
Definition up (F : fmt) (v : Z) : Z := v + 2 ^ excess F v.
Definition down (F : fmt) (v : Z) : Z := v - 2 ^ excess F (v - 1).
Definition next_above (F : fmt) (x : fl) : fl :=
  match x with
  | NaN => NaN
  | Inf false => Inf false
  | Inf true => Fin true (maxv F)
  | Fin false v => if maxv F <? up F v then Inf false else Fin false (up F v)
  | Fin true v => if v =? 0 then Fin false 1 else Fin true (down F v)
  end.
(** nexttoward, nexttowardf: [wide] converts to the type of [y]; equal
    arguments give [y] *)
Definition nexttoward (F : fmt) (wide : fl -> fl) (x y : fl) : fl :=
  match fcmp (wide x) y with
  | None => NaN
  | Some Eq => match x, y with Fin _ v, Fin n _ => Fin n v | _, _ => x end
  | Some Lt => next_above F x
  | Some Gt => neg (next_above F (neg x))
  end.
(** float to double: exact *)
Definition widen (x : fl) : fl := match x with Fin n v => Fin n (v * 2 ^ (one_exp F64 - one_exp F32)) | _ => x end.
(** round, roundf: halves away from zero *)
Definition round_away (F : fmt) (x : fl) : fl := match x with Fin n v => Fin n ((2 * v + one F) / (2 * one F) * one F) | _ => x end.
(** the division of IEEE 754 *)
Definition div (F : fmt) (a b : fl) : fl :=
  match a, b with
  | NaN, _ | _, NaN => NaN
  | Inf _, Inf _ => NaN
  | Inf n, Fin n' _ => Inf (xorb n n')
  | Fin n _, Inf n' => Fin (xorb n n') 0
  | Fin n v, Fin n' w =>
    if w =? 0 then (if v =? 0 then NaN else Inf (xorb n n'))
    else let e := Z.max 0 (Z.log2 (v * one F / w) - mbits F) in
         let q := rne (v * one F) (w * 2 ^ e) * 2 ^ e in
         if maxv F <? q then Inf (xorb n n') else Fin (xorb n n') q
  end.

(** ** Constants: Double.hpp:43-109, Float.hpp:41-95 *)
Definition MIN_EXPONENT (F : fmt) : Z := 1 - bias F.
Definition MAX_EXPONENT (F : fmt) : Z := bias F.
Definition SIGNIFICAND_WIDTH (F : fmt) : Z := mbits F + 1.
Definition EXP_BIAS (F : fmt) : Z := bias F.
Definition EXP_BIT_MASK : Z := 9218868437227405312. (* 0x7FF0000000000000L *)
(** numeric_limits::min is the least normal number *)
Definition MIN_VALUE (F : fmt) : fl := Fin false (2 ^ mbits F).
(** numeric_limits<double>::denorm_min, 1.4013e-45f *)
Definition MIN_NORMAL (F : fmt) : fl := Fin false 1.
Definition MAX_VALUE (F : fmt) : fl := Fin false (maxv F).

(** ** Functions; [F] is F64 for the double and F32 for the float version *)
(** Math.cpp:37-39 *)
Definition abs_float (x : fl) : fl := if fge x zero then x else neg x.
(** Math.cpp:45-51 *)
Definition abs_double (x : fl) : fl := if isNaN x then NaN else if fge x zero then x else neg x.
(** Math.cpp:93-99 *)
Definition copySign (x s : fl) : fl := copysign x s.
(** Math.cpp:427-432 *)
Definition signum_double (x : fl) : fl := if feq x zero || isNaN x then x else copySign (Fin false (one F64)) x.
(** Math.cpp:434-444 *)
Definition signum_float (x : fl) : fl :=
  if feq x zero || isNaN x then x else if feq x zero then Fin true 0 else copySign (Fin false (one F32)) x.
(** Math.cpp:263-265, 271-273 *)
Definition max (a b : fl) : fl := if fgt a b then a else b.
(** Math.cpp:279-281, 287-289; Double.cpp:316-318, Float.cpp:595-597 *)
Definition min (a b : fl) : fl := if flt a b then a else b.
(** Math.cpp:173-190 (double), 192-209 (float) *)
Definition getExponent (F : fmt) (x : fl) : Z :=
  if isNaN x || feq x (Inf true) || feq x (Inf false) then MAX_EXPONENT F + 1
  else if feq x zero || feq x zero then MIN_EXPONENT F - 1
  else match x with
       | Fin n v =>
         let '(mantissas, exponent) := frexp F n v in
         if fge (mul F64 mantissas (of_int F64 10)) (of_int F64 1) && (exponent - 1 <? MIN_EXPONENT F) then MIN_EXPONENT F - 1
         else exponent - 1
       | _ => 0 (* not reached *)
       end.
(** Math.cpp:331-333 *)
Definition nextAfter_double (start direction : fl) : fl := nexttoward F64 (fun x => x) start direction.
(** Math.cpp:335-337: the direction is a double *)
Definition nextAfter_float (start direction : fl) : fl := nexttoward F32 widen start direction.
(** Math.cpp:339-348 (double), 350-360 (float) *)
Definition nextDown (F : fmt) (x : fl) : fl :=
  if isNaN x || feq x (Inf true) then x
  else if feq x zero then neg (MIN_VALUE F)
  else nexttoward F (fun x => x) x (Inf true).
(** Math.cpp:362-376 *)
Definition nextUp (F : fmt) (x : fl) : fl :=
  if isNaN x || feq x (Inf false) then x else nexttoward F (fun x => x) x (Inf false).
(** Math.cpp:382-389: the left operand of [<<] is an int *)
Definition powerOfTwoD (m : cpp) (exponent : Z) : outcome fl :=
  if (exponent <? MIN_EXPONENT F64) || (MAX_EXPONENT F64 <? exponent) then Throw AssertionError
  else let* s := sadd m 32 exponent (EXP_BIAS F64) in
       let* b := sshl m 32 s (SIGNIFICAND_WIDTH F64 - 1) in
       from_bits m CDouble (Z.land b EXP_BIT_MASK).
(** Math.cpp:392-400 *)
Definition powerOfTwoF (exponent : Z) : outcome fl :=
  if (exponent <? MIN_EXPONENT F32) || (MAX_EXPONENT F32 <? exponent) then Throw AssertionError else Ok zero.
(** Math.cpp:498-521 *)
Definition ulp_float (x : fl) : outcome fl :=
  if feq x (MAX_VALUE F32) || feq x (neg (MAX_VALUE F32)) then Ok (pow2 F32 104)
  else let exp := getExponent F32 x in
       if exp =? MAX_EXPONENT F32 + 1 then Ok (abs_float x)
       else if exp =? MIN_EXPONENT F32 - 1 then Ok (MIN_VALUE F32)
       else if (MAX_EXPONENT F32 <? exp) || (exp <? MIN_EXPONENT F32) then Throw AssertionError
       else let exp := exp - (SIGNIFICAND_WIDTH F32 - 1) in
            if MIN_EXPONENT F32 <=? exp then powerOfTwoF exp else Ok zero.
(** Math.cpp:523-546: the left operand of [<<] is an int *)
Definition ulp_double (m : cpp) (x : fl) : outcome fl :=
  if feq x (MAX_VALUE F64) || feq x (neg (MAX_VALUE F64)) then Ok (pow2 F64 971)
  else let exp := getExponent F64 x in
       if exp =? MAX_EXPONENT F64 + 1 then Ok (abs_double x)
       else if exp =? MIN_EXPONENT F64 - 1 then Ok (MIN_VALUE F64)
       else if (MAX_EXPONENT F64 <? exp) || (exp <? MIN_EXPONENT F64) then Throw AssertionError
       else let exp := exp - (SIGNIFICAND_WIDTH F64 - 1) in
            if MIN_EXPONENT F64 <=? exp then powerOfTwoD m exp
            else let* b := sshl m 32 1 (exp - (MIN_EXPONENT F64 - (SIGNIFICAND_WIDTH F64 - 1))) in from_bits m CDouble b.
(** Math.cpp:411-417: an int of a float ([w] = 32), a long of a double (64) *)
Definition round (F : fmt) (w : Z) (x : fl) : outcome Z := to_int F w (round_away F x).
(** Math.cpp:215-225 *)
Definition IEEERemainder (a b : fl) : fl :=
  let r := sub F64 a (mul F64 (round_away F64 (div F64 a b)) b) in
  if isNaN r then abs_double r else r.
(** Double.cpp:98-108 (shortValue, intValue, longValue), Float.cpp:139-149:
    [w] is 16, 32, 64 *)
Definition cast (F : fmt) (w : Z) (x : fl) : outcome Z := to_int F w x.
(** Double.cpp:118-120, Float.cpp:155-157; byte is unsigned char
    (Kernel/Type.hpp:38) *)
Definition byteValue (F : fmt) (x : fl) : outcome Z :=
  match x with
  | Fin n v => let z := signed n (v / one F) in if (0 <=? z) && (z <=? 255) then Ok z else UB Precondition
  | _ => UB Precondition
  end.
