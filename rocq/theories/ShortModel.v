(** Model of /repo/library/Java/Lang/Short/Short.cpp.

    The compound assignments (+= and so on) are declared in Short.hpp:76-80
    but defined nowhere, so there is nothing to model. *)

From Coq Require Import ZArith List Bool.
From Verif Require Import Base CppText StringModel.
Import ListNotations.
Open Scope Z_scope.

(** The two fields; [originalString] is the malloc'ed text. *)
Record Short : Type := mkS { original : Z; originalString : str }.
(** conversion of an int or long to short (implementation-defined before
    C++20; gcc reduces modulo 2^16) *)
Definition to_short (x : Z) : Z := wrap 16 x.

(** Short.cpp:35-38, 45-48, 55-58: [asprintf(&originalString, "%d", original)] *)
Definition new_default : Short := mkS 0 [48].
Definition new (x : Z) : Short := mkS x (itoa x).
Definition copy (a : Short) : Short := mkS (original a) (itoa (original a)).
(** Short.cpp:157-162: the object after the assignment *)
Definition assign (a b : Short) : Short := mkS (original b) (itoa (original b)).

(** [sscanf(text, "%hi", &result)] (glibc): white space, a sign, then base 16
    after 0x or 0X, base 8 after 0, base 10 otherwise, and the longest run of
    digits; no digit at all leaves the variable alone.  The value is cut to
    long by strtol and stored as a short; the standard leaves a value that is
    no short undefined. *)
Definition scan_i (s : str) : option Z :=
  let '(neg, s1) := strip_sign (skip_ws s) in
  let v := match s1 with
           | z :: t =>
             if z =? 48 then
               match t with
               | x :: u => if (x =? 120) || (x =? 88) then Some (numval 16 (take_digits 16 u)) else Some (numval 8 (take_digits 8 t))
               | [] => Some 0
               end
             else match take_digits 10 s1 with [] => None | ds => Some (numval 10 ds) end
           | [] => None
           end in
  match v with Some w => Some (if neg then - w else w) | None => None end.
(** Short.cpp:72-76 *)
Definition parseShort (m : cpp) (s : str) : outcome Short :=
  match scan_i (cstr s) with
  | None => UB Uninitialised
  | Some v =>
    match m with
    | ISO => if (-32768 <=? v) && (v <=? 32767) then Ok (new v) else UB Precondition
    | HW => Ok (new (to_short (Z.max long_min (Z.min long_max v))))
    end
  end.
(** Short.cpp:83-85 *)
Definition toString (a : Short) : str := originalString a.
(** Short.cpp:92-103: the first character; the pointer is never equal to the
    literal's *)
Definition charValue (a : Short) : Z := hd 0 (itoa (original a)).
(** Short.cpp:110-130 (shortValue, intValue, longValue) *)
Definition value (a : Short) : Z := original a.

(** Short.cpp:169-207: the operands are promoted to int, the result is
    converted to short *)
Section Arith.
Variable m : cpp.
Definition add (a b : Short) : outcome Short := let* r := sadd m 32 (original a) (original b) in Ok (new (to_short r)).
Definition sub (a b : Short) : outcome Short := let* r := ssub m 32 (original a) (original b) in Ok (new (to_short r)).
Definition mul (a b : Short) : outcome Short := let* r := smul m 32 (original a) (original b) in Ok (new (to_short r)).
Definition div (a b : Short) : outcome Short := let* r := sdiv 32 (original a) (original b) in Ok (new (to_short r)).
Definition mod_ (a b : Short) : outcome Short := let* r := srem 32 (original a) (original b) in Ok (new (to_short r)).
End Arith.
(** Short.cpp:214-261 *)
Definition eq (a b : Short) : bool := original a =? original b.
Definition ne (a b : Short) : bool := negb (eq a b).
Definition lt (a b : Short) : bool := original a <? original b.
Definition gt (a b : Short) : bool := original b <? original a.
Definition le (a b : Short) : bool := original a <=? original b.
Definition ge (a b : Short) : bool := original b <=? original a.
(** Short.hpp:88-90: the hash of the text, for any hash of texts *)
Definition hash {H} (h : str -> H) (a : Short) : H := h (cstr (toString a)).
