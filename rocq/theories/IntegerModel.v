(** Model of /repo/library/Java/Lang/Integer/Integer.cpp.
    Every function takes the arithmetic reading [m] when it contains signed
    arithmetic or shifts whose definedness depends on it. *)

From Coq Require Import ZArith List Lia Bool.
From Verif Require Import Base CppText StringModel.
Import ListNotations.
Open Scope Z_scope.

(** Integer.hpp:67,72 *)
Definition MAX_VALUE : Z := int_max.
Definition MIN_VALUE : Z := int_min.

(** [(unsigned int) x] *)
Definition u32 (x : Z) : Z := uwrap 32 x.
(** conversion of an unsigned int (or long) result to int *)
Definition to_int (x : Z) : Z := wrap 32 x.

(** ** Text (needed by bitCount and numberOfTrailingZeros) *)

(** Integer.cpp:498-501: [((long) inputInt) & 0xffffffff] *)
Definition toUnsignedLong (x : Z) : Z := Z.land x (Z.ones 32).

(** std::bitset<32>(v).to_string(): bit 31 first. *)
Definition bitset32_to_string (v : Z) : str :=
  map (fun k => if Z.testbit v (31 - Z.of_nat k) then 49 else 48) (seq 0 32).

(** Integer.cpp:535-571. The calls [result.replace(',', '\0')] discard their
    result, so they are no-ops. *)
Definition toUnsignedString (x radix : Z) : outcome str :=
  if x =? 0 then Ok [48]
  else
    let radix := if (32 <? radix) || (radix <? 2) then 10 else radix in
    if radix =? 2 then
      let result := bitset32_to_string (toUnsignedLong x) in
      getStringFromIndex result (indexOf_char result 49)
    else if radix =? 8 then Ok (utoa 8 (toUnsignedLong x))
    else if radix =? 16 then Ok (utoa 16 (toUnsignedLong x))
    else if radix =? 10 then Ok (utoa 10 (toUnsignedLong x))
    else Throw UnsupportedOperationException.

(** Integer.cpp:531-533 *)
Definition toBinaryString (x : Z) : outcome str := toUnsignedString x 2.
(** Integer.cpp:577-583 *)
Definition toHexString (x : Z) : outcome str := toUnsignedString x 16.
Definition toOctalString (x : Z) : outcome str := toUnsignedString x 8.

(** Integer.cpp:601-608 *)
Definition toString (m : cpp) (x radix : Z) : outcome str :=
  if x <? 0 then
    let* y := sneg m 32 x in
    let* s := toUnsignedString y radix in
    Ok (45 :: s)
  else toUnsignedString x radix.

(** ** Bit queries *)

(** Loop of Integer.cpp:202-206 over the indices 0..length-1. *)
Fixpoint count_ones (s : str) (n : nat) (index acc : Z) : outcome Z :=
  match n with
  | O => Ok acc
  | S k => let* c := charAt s index in
           count_ones s k (index + 1) (if c =? 49 then acc + 1 else acc)
  end.
(** Integer.cpp:198-209 *)
Definition bitCount (x : Z) : outcome Z :=
  let* s := toBinaryString x in count_ones s (length s) 0 0.

(** Integer.cpp:290-298: arithmetic shifts of an int, unsigned subtraction. *)
Definition highestOneBit (x : Z) : Z :=
  let x := Z.lor x (Z.shiftr x 1) in
  let x := Z.lor x (Z.shiftr x 2) in
  let x := Z.lor x (Z.shiftr x 4) in
  let x := Z.lor x (Z.shiftr x 8) in
  let x := Z.lor x (Z.shiftr x 16) in
  to_int (uwrap 32 (u32 x - Z.shiftr (u32 x) 1)).

(** Integer.cpp:300-302 *)
Definition lowestOneBit (m : cpp) (x : Z) : outcome Z :=
  let* n := sneg m 32 x in Ok (Z.land x n).

(** One test of Integer.cpp:319-337: [if ((unsigned) x >> (32-s) == 0)
    { n += s; x <<= s; }] *)
Definition nlz_step (m : cpp) (s : Z) (nx : Z * Z) : outcome (Z * Z) :=
  let '(n, x) := nx in
  if Z.shiftr (u32 x) (32 - s) =? 0 then
    let* x' := sshl m 32 x s in Ok (n + s, x')
  else Ok (n, x).
(** Integer.cpp:312-342; [n -= unsigned] is computed in unsigned and
    converted back, the value stays within 0..31. *)
Definition numberOfLeadingZeros (m : cpp) (x : Z) : outcome Z :=
  if x =? 0 then Ok 32
  else
    let* p := nlz_step m 16 (1, x) in
    let* p := nlz_step m 8 p in
    let* p := nlz_step m 4 p in
    let* p := nlz_step m 2 p in
    let '(n, y) := p in
    Ok (to_int (uwrap 32 (n - Z.shiftr (u32 y) 31))).

(** Integer.cpp:344-353 *)
Definition numberOfTrailingZeros (x : Z) : outcome Z :=
  if x =? 0 then Ok 32
  else
    let* s := toBinaryString x in
    let* last := lastIndexOf_char s 49 in
    Ok (zlen s - last - 1).

(** ** Bit permutations *)

(** Lines 460-467: [(x & mask) << s | (((unsigned) x >> s) & mask)]; the
    result is unsigned and is converted to int by the assignment. *)
Definition swap_step (m : cpp) (mask s x : Z) : outcome Z :=
  let* a := sshl m 32 (Z.land x mask) s in
  Ok (to_int (Z.lor (u32 a) (Z.land (Z.shiftr (u32 x) s) mask))).
(** Integer.cpp:459-474 *)
Definition reverse (m : cpp) (x : Z) : outcome Z :=
  let* x := swap_step m 0x55555555 1 x in
  let* x := swap_step m 0x33333333 2 x in
  let* x := swap_step m 0x0f0f0f0f 4 x in
  let* a := sshl m 32 x 24 in
  let* b := sshl m 32 (Z.land x 0xff00) 8 in
  Ok (to_int (Z.lor (Z.lor (Z.lor (u32 a) (u32 b))
                          (Z.land (Z.shiftr (u32 x) 8) 0xff00))
                   (Z.shiftr (u32 x) 24))).

(** Integer.cpp:476-483 *)
Definition reverseBytes (m : cpp) (x : Z) : outcome Z :=
  let* a := sshl m 32 x 8 in
  let* b := sshl m 32 x 24 in
  Ok (to_int (Z.lor (Z.lor (Z.lor (Z.shiftr (u32 x) 24)
                                 (Z.land (Z.shiftr x 8) 0xFF00))
                          (Z.land a 0xFF0000))
                   (u32 b))).

(** Integer.cpp:485-488 *)
Definition rotateLeft (m : cpp) (x distance : Z) : outcome Z :=
  let* a := sshl m 32 x distance in
  let* nd := sneg m 32 distance in
  let* b := ushr m 32 (u32 x) nd in
  Ok (to_int (Z.lor (u32 a) b)).
(** Integer.cpp:490-492 *)
Definition rotateRight (m : cpp) (x distance : Z) : outcome Z :=
  let* a := ushr m 32 (u32 x) distance in
  let* nd := sneg m 32 distance in
  let* b := sshl m 32 x nd in
  Ok (to_int (Z.lor a (u32 b))).

(** ** Comparison and unsigned arithmetic *)

(** Integer.cpp:215-225 *)
Definition compare (a b : Z) : Z := if a <? b then -1 else if b <? a then 1 else 0.
(** Integer.cpp:231-233 *)
Definition compareUnsigned (m : cpp) (a b : Z) : outcome Z :=
  let* a' := sadd m 32 a MIN_VALUE in
  let* b' := sadd m 32 b MIN_VALUE in
  Ok (compare a' b').
(** Integer.cpp:267-272 *)
Definition divideUnsigned (dividend divisor : Z) : outcome Z :=
  if divisor =? 0 then Throw ArithmeticException
  else let* q := sdiv 64 (toUnsignedLong dividend) (toUnsignedLong divisor) in
       Ok (to_int q).
(** Integer.cpp:452-457 *)
Definition remainderUnsigned (dividend divisor : Z) : outcome Z :=
  if divisor =? 0 then Throw ArithmeticException
  else let* r := srem 64 (toUnsignedLong dividend) (toUnsignedLong divisor) in
       Ok (to_int r).
(** Integer.cpp:515-525 *)
Definition signum (x : Z) : Z := if x =? 0 then 0 else if 0 <? x then 1 else -1.
(** Integer.cpp:527-529 *)
Definition sum (m : cpp) (a b : Z) : outcome Z := sadd m 32 a b.

(** ** Operators: the object keeps its value and the text shown by
    toString() (Integer.hpp:43-44, Integer.cpp:494-496) *)

Record integer := { ival : Z; itext : str }.
(** constructor Integer(int): both fields from the value *)
Definition mk_integer (x : Z) : integer := {| ival := x; itext := itoa x |}.

Inductive iop := IAdd | ISub | IMul | IDiv | IMod.
(** Integer.cpp:107-113, 139-155 *)
Definition int_op (m : cpp) (o : iop) (a b : Z) : outcome Z :=
  match o with
  | IAdd => sadd m 32 a b
  | ISub => ssub m 32 a b
  | IMul => smul m 32 a b
  | IDiv => if b =? 0 then Throw ArithmeticException else sdiv 32 a b
  | IMod => if b =? 0 then Throw ArithmeticException else srem 32 a b
  end.
(** Integer.cpp:157-196: compound assignment refreshes the text. *)
Definition int_op_assign (m : cpp) (o : iop) (a : integer) (b : Z) : outcome integer :=
  let* r := int_op m o (ival a) b in
  Ok {| ival := r; itext := itoa r |}.

(** ** Parsing *)

(** the two catch clauses around std::stoul: Integer.cpp:376-384, 431-437 *)
Definition catch_stoul (o : outcome Z) : outcome Z :=
  match o with
  | Throw InvalidArgument => Throw NumberFormatException
  | Throw OutOfRange => Throw NumberFormatException
  | o => o
  end.

(** Integer.cpp:355-397. [isdigit('-')] is 0, so the test of line 370 is
    [sign == '-']. [long result = unsignedResult] and
    [result = -unsignedResult] convert modulo 2^64. *)
Definition parseInt (s : str) (radix : Z) : outcome Z :=
  if zlen s =? 0 then Throw NumberFormatException
  else if (32 <? radix) || (radix <? 2) then Throw NumberFormatException
  else
    let* c0 := charAt s 0 in
    if (c0 =? 48) && (zlen s =? 1) then Ok 0
    else
      let isNegative := c0 =? 45 in
      let* s' := (if isNegative then getStringFromIndex s 1 else Ok s) in
      let* u := catch_stoul (stoul radix (cstr s')) in
      let result := if isNegative then wrap 64 (uwrap 64 (- u)) else wrap 64 u in
      if (MAX_VALUE <? result) || (result <? MIN_VALUE) then Throw NumberFormatException
      else Ok result.

(** Integer.cpp:403-446 *)
Definition parseUnsignedInt (m : cpp) (s : str) (radix : Z) : outcome Z :=
  if zlen s =? 0 then Throw NumberFormatException
  else if (32 <? radix) || (radix <? 2) then Throw NumberFormatException
  else
    let* c0 := charAt s 0 in
    if (c0 =? 48) && (zlen s =? 1) then Ok 0
    else
      let* d := ctype m is_digit_c c0 in
      if negb d && (c0 =? 45) then Throw NumberFormatException
      else
        let* s' := (if negb d && (c0 =? 43) then getStringFromIndex s 1 else Ok s) in
        let* u := catch_stoul (stoul radix (cstr s')) in
        let result := wrap 64 u in
        if (0xffffffff <? result) || (result <? 0) then Throw NumberFormatException
        else Ok (to_int result).

(** Integer.cpp:235-265 *)
Definition decode (m : cpp) (s : str) : outcome Z :=
  if zlen s =? 0 then Throw NumberFormatException
  else
    let* c0 := charAt s 0 in
    if (c0 =? 48) && (zlen s =? 1) then Ok 0
    else
      let isNegative := c0 =? 45 in
      let* s' := (if isNegative then getStringFromIndex s 1 else Ok s) in
      let* d0 := charAt s' 0 in
      let* base := (if d0 =? 48 then
                      let* d1 := charAt s' 1 in
                      Ok (if (d1 =? 120) || (d1 =? 88) then 16 else 8)
                    else Ok 10) in
      let* result := parseInt s' base in
      if isNegative then sneg m 32 result else Ok result.
