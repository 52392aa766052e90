(** Model of the bit conversions of
    /repo/library/Java/Lang/Double/Double.cpp and Float/Float.cpp.

    The two files contain the same code for the two formats, with other
    buffer sizes; it is modelled once for a description [c] of the file.
    Every buffer is a block whose accesses are checked.  The integer
    variables counting buffer positions stay far below the int range and are
    plain numbers.  [m] is the reading of signed arithmetic. *)

From Coq Require Import ZArith List Bool.
From Verif Require Import Base CppText CMem Ieee FloatBitsSpec StringModel.
From Verif Require StringBuilderModel.
Import ListNotations.
Open Scope Z_scope.

Record code : Type := mkC {
  cfmt : fmt;
  nInteger : Z; nFraction : Z; nNormal : Z;  (* sizes of the three work buffers *)
  zeroed : bool;                             (* calloc or malloc *)
  nanText : bool                             (* does the text of ones denote NaN? *) }.
(** Double.cpp:376-379; Kernel/Common.hpp:101-103 (allocateMemory is malloc) *)
Definition CDouble : code := mkC F64 2048 54 2102 false false.
(** Float.cpp:200-204, 476-478 *)
Definition CFloat : code := mkC F32 280 25 280 true true.

Definition c0 : Z := 48.
Definition c1 : Z := 49.
Definition dot : Z := 46.

(** Double.cpp:293-295, Float.cpp:183-185 *)
Definition isNaN (x : fl) : bool := negb (feq x x).
(** [for (; n > 0; n--, i++) b[i] = ch;] *)
Fixpoint fill (n : nat) (i ch : Z) (b : block) : outcome block :=
  match n with O => Ok b | S k => let* b' := mset b i ch in fill k (i + 1) ch b' end.
(** Double.cpp:468-473, Float.cpp:281-286 *)
Fixpoint count_bits (fuel : nat) (n size : Z) : outcome Z :=
  match fuel with
  | O => OutOfFuel
  | S f => if n =? 0 then Ok size else count_bits f (Z.shiftr n 1) (size + 1)
  end.
(** Double.cpp:478-490, 565-577; Float.cpp:290-301, 373-384 *)
Fixpoint put_bits (fuel : nat) (b : block) (n index : Z) : outcome block :=
  match fuel with
  | O => OutOfFuel
  | S f => if n =? 0 then Ok b
           else let* b' := mset b index (if Z.land n 1 =? 1 then c1 else c0) in put_bits f b' (Z.shiftr n 1) (index - 1)
  end.
(** Double.cpp:534-541, Float.cpp:352-358: for (i = 0; i <= limit; i++) *)
Fixpoint find_one (fuel : nat) (b : block) (i limit : Z) : outcome Z :=
  match fuel with
  | O => OutOfFuel
  | S f => if i <=? limit then let* x := mget b i in if x =? c1 then Ok i else find_one f b (i + 1) limit
           else Ok 1
  end.

Section Bits.
Variable m : cpp.
Variable c : code.
Let F := cfmt c.
Let W := width F.

Definition alloc (n : Z) : block := if zeroed c then c_calloc n else repeat None (Z.to_nat n).

(** Double.cpp:495-510, Float.cpp:306-321 *)
Fixpoint fraction_loop (fuel : nat) (b : block) (fraction : fl) (index : Z) : outcome (block * Z) :=
  match fuel with
  | O => OutOfFuel
  | S f =>
    if negb (feq fraction zero) && (index <? mbits F + 1) then
      let doubled := mul F fraction (of_int F 2) in
      let* integerPart := to_int F 32 (floor F doubled) in
      let* b' := if integerPart =? 1 then mset b index c1 else if integerPart =? 0 then mset b index c0 else Ok b in
      fraction_loop f b' (sub F doubled (of_int F integerPart)) (index + 1)
    else Ok (b, index)
  end.
(** Double.cpp:585-596, Float.cpp:392-403 (the loop over [index]) *)
Fixpoint mantissa_loop (n : nat) (form res : block) (index i size dotIndex : Z) : outcome block :=
  match n with
  | O => Ok res
  | S k =>
    if i =? size then Ok res
    else
      let i := if i =? dotIndex then i + 1 else i in
      let* x := mget form i in
      let* res' := mset res index x in
      mantissa_loop k form res' (index + 1) (i + 1) size dotIndex
  end.

(** A sign, the ones of the exponent field and a fraction of equal digits:
    the literals of Double.cpp:433-451, Float.cpp:251-265. *)
Definition literal (sign fraction : Z) : str := sign :: repeat c1 (Z.to_nat (ebits F)) ++ repeat fraction (Z.to_nat (mbits F)).

(** Double.cpp:456-596, Float.cpp:269-403: a finite number other than zero.
    [res] holds '0's and the sign. *)
Definition finite_text (integerPart0 fractionPart0 form0 res : block) (x0 : fl) : outcome block :=
  let x := fabs x0 in
  let* integerPart := to_int F 32 (floor F x) in
  let* sizeInteger := if integerPart =? 0 then Ok 1 else count_bits 64 integerPart 0 in
  let* digits := put_bits 64 integerPart0 integerPart (sizeInteger - 1) in
  (* here the variable integerPart has been shifted down to 0 *)
  let* ' (fraction, sizeFraction) := fraction_loop (Z.to_nat (mbits F + 2)) fractionPart0 (sub F x (of_int F 0)) 0 in
  let* form1 := copy_in (Z.to_nat sizeInteger + 1) (mget digits) form0 0 0 sizeInteger in
  let dotIndex := sizeInteger in
  let* form2 := mset form1 dotIndex dot in
  let* form := copy_in (Z.to_nat sizeFraction + 2) (mget fraction) form2 (dotIndex + 1) 0 (sizeFraction + 1) in
  let size := sizeInteger + 1 + sizeFraction in
  let* first := find_one (Z.to_nat size + 2) form 0 size in
  let power := if integerPart =? 0 then dotIndex - first else dotIndex - first - 1 in
  let exponent := power + bias F in
  let* res1 := put_bits 64 res exponent (ebits F) in
  mantissa_loop (Z.to_nat (mbits F)) form res1 (ebits F + 1) (first + 1) size dotIndex.

(** Double.cpp:375-596 (the whole function), Float.cpp:199-411 *)
Definition bits_text (x : fl) : outcome str :=
  let n := Z.to_nat in
  let* form := fill (n W) 0 c0 (alloc (nNormal c)) in
  let* res := fill (n W) 0 c0 (alloc (W + 1)) in
  let* integerPart := fill (n (mbits F + 1)) 0 c0 (alloc (nInteger c)) in
  let* fractionPart := fill (n (mbits F + 1)) 0 c0 (alloc (nFraction c)) in
  let* integerPart := mset integerPart (nInteger c - 1) 0 in
  let* fractionPart := mset fractionPart (mbits F + 1) 0 in
  let* form := mset form (nNormal c - 1) 0 in
  let* res := mset res W 0 in
  let* res := if fge x zero then mset res 0 c0 else if flt x zero then mset res 0 c1 else Ok res in
  if feq x zero then StringBuilderModel.c_string res
  else if feq x (Inf false) then Ok (literal c0 c0)
  else if feq x (Inf true) then Ok (literal c1 c0)
  else if isNaN x then Ok (literal c0 c1)
  else let* res := finite_text integerPart fractionPart form res x in StringBuilderModel.c_string res.

(** the value [tempValue] after looking at a character *)
Definition bit_of (ch temp : Z) : Z := if ch =? c1 then 1 else if ch =? c0 then 0 else temp.
(** Double.cpp:239-249, Float.cpp:496-506; [(long) Math::pow(2, exponent)] *)
Fixpoint sum_bits (n : nat) (t : str) (i exponent temp result : Z) : outcome Z :=
  match n with
  | O => Ok result
  | S k =>
    let* ch := charAt t i in
    let temp := bit_of ch temp in
    let* p := to_int F64 W (pow2 F64 exponent) in
    let* d := smul m W temp p in
    let* result := sadd m W result d in
    sum_bits k t (i + 1) (exponent - 1) temp result
  end.
(** Double.cpp:222-256 (doubleToLongBits, doubleToRawLongBits), Float.cpp:483-518 *)
Definition raw_bits (x : fl) : outcome Z :=
  let* t := bits_text x in
  let* r := sum_bits (Z.to_nat (W - 1)) t 1 (W - 2) 0 0 in
  let* ch := charAt t 0 in
  if ch =? c1 then smul m W (-1) r else Ok r.

(** Double.cpp:614-626, 632-644; Float.cpp:429-441, 447-459: the sum of
    [tempValue * pow(2, tempExponent)]; answers also [isNaN]. *)
Fixpoint sum_powers (n : nat) (t : str) (i tempExponent temp : Z) (acc : fl) (nan : bool) : outcome (fl * bool * Z) :=
  match n with
  | O => Ok (acc, nan, temp)
  | S k =>
    let* ch := charAt t i in
    let temp := bit_of ch temp in
    let nan := nan && negb (ch =? c0) in
    sum_powers k t (i + 1) (tempExponent - 1) temp (add F acc (mul F (of_int F temp) (pow2 F tempExponent))) nan
  end.
(** [pow(2, x)] for an integral floating point [x] *)
Definition pow2_of (x : fl) : fl := match x with Fin n v => pow2 F (signed n (v / one F)) | _ => NaN end.
(** Double.cpp:598-661, Float.cpp:413-481 *)
Definition text_value (t : str) : outcome fl :=
  let* s := charAt t 0 in
  let sign := if s =? c1 then -1 else 1 in
  let* ' (exponent, nan1, temp) := sum_powers (Z.to_nat (ebits F)) t 1 (ebits F - 1) 0 (of_int F 0) true in
  let exponentAdjusted := sub F exponent (of_int F (bias F)) in
  let* ' (mantissa, nan, _) := sum_powers (Z.to_nat (mbits F)) t (ebits F + 1) (-1) temp (of_int F 0) nan1 in
  let result := mul F (mul F (of_int F sign) (add F (of_int F 1) mantissa)) (pow2_of exponentAdjusted) in
  if nanText c && nan then Ok NaN else Ok result.

(** Double.cpp:681-692, Float.cpp:539-551; [>>] of a negative number is
    arithmetic *)
Fixpoint bits_loop (fuel : nat) (b : block) (n index : Z) : outcome block :=
  match fuel with
  | O => OutOfFuel
  | S f => if negb (n =? 0) || (1 <? index)
           then let* b' := mset b index (if Z.land n 1 =? 1 then c1 else c0) in bits_loop f b' (Z.shiftr n 1) (index - 1)
           else Ok b
  end.
(** Double.cpp:663-697, Float.cpp:520-556 *)
Definition int_text (bits : Z) : outcome str :=
  let* b := fill (Z.to_nat W) 0 c0 (alloc (W + 1)) in
  let* b := mset b W 0 in
  let* b := if bits <? 0 then mset b 0 c1 else Ok b in
  let* n := if bits <? 0 then sneg m W bits else Ok bits in
  let* b := bits_loop (Z.to_nat W + 1) b n (W - 1) in
  StringBuilderModel.c_string b.
(** Double.cpp:301-314: [Double::isNaN(longBitsInput)] converts the long to a double *)
Definition from_bits (bits : Z) : outcome fl :=
  if isNaN (of_int F bits) then Ok NaN else let* t := int_text bits in text_value t.

(** ** Comparison: Double.cpp:203-220, 138-164, 259-267; Float.cpp:558-585, 74-102 *)
Definition compare (a b : fl) : outcome Z :=
  let* x := raw_bits a in
  let* y := raw_bits b in
  if x =? y then Ok 0 else if x <? y then Ok (-1) else Ok 1.
Definition equals (a b : fl) : outcome bool :=
  let* x := raw_bits b in
  let* y := raw_bits a in
  Ok (x =? y).
Definition op_lt (a b : fl) : outcome bool := let* r := compare a b in Ok (r =? -1).
Definition op_gt (a b : fl) : outcome bool := let* r := compare a b in Ok (r =? 1).
Definition op_le (a b : fl) : outcome bool := let* r := compare a b in Ok ((r =? -1) || (r =? 0)).
Definition op_ge (a b : fl) : outcome bool := let* r := compare a b in Ok ((r =? 1) || (r =? 0)).
End Bits.

(** Double.cpp:269-277 *)
Definition double_hashCode (m : cpp) (x : fl) : outcome Z := let* bits := raw_bits m CDouble x in Ok (Z.lxor bits (Z.shiftr bits 32)).
(** Float.cpp:587-593 *)
Definition float_hashCode (m : cpp) (x : fl) : outcome Z := raw_bits m CFloat x.
(** Float.cpp:599-606: through a union (gcc defines this) *)
Definition intBitsToFloat (bits : Z) : fl := denoted F32 (uwrap 32 bits).

(** Double.cpp:279-287, Float.cpp:169-177; [Math::abs] is Math.cpp:37-39, 45-51 *)
Definition math_abs (F : fmt) (x : fl) : fl := if isNaN x then NaN else if fge x zero then x else neg x.
Definition isFinite (F : fmt) (x : fl) : bool := fle (math_abs F x) (Fin false (maxv F)).
Definition isInfinite (x : fl) : bool := feq x (Inf false) || feq x (Inf true).
