(** Model of /repo/library/Java/Lang/Character/Character.cpp (surrogates,
    code points, digit). *)

From Coq Require Import ZArith List Lia Bool.
From Verif Require Import Base CppText.
Import ListNotations.
Open Scope Z_scope.

(** A C++ multi-character literal of four characters has type int and an
    implementation-defined value; gcc: each character shifts the previous ones
    by 8 bits. *)
Definition multichar (a b c d : Z) : Z := ((a * 256 + b) * 256 + c) * 256 + d.

(** Character.cpp:329-368. [\u] takes exactly four hexadecimal digits, so
    ['\u000D800'] is the four-character literal CR '8' '0' '0', and so on.
    [unicode] is wchar_t (Type.hpp:37), a 32-bit signed type on Linux. *)
Definition MIN_HIGH_SURROGATE : Z := multichar 13 56 48 48.  (* CR 8 0 0 *)
Definition MAX_HIGH_SURROGATE : Z := multichar 13 66 70 70.  (* CR B F F *)
Definition MIN_LOW_SURROGATE : Z := multichar 13 67 48 48.   (* CR C 0 0 *)
Definition MAX_LOW_SURROGATE : Z := multichar 13 70 70 70.   (* CR F F F *)
Definition MIN_SURROGATE : Z := MIN_HIGH_SURROGATE.
Definition MAX_SURROGATE : Z := MAX_LOW_SURROGATE.
(** Character.cpp:375 *)
Definition MIN_SUPPLEMENTARY_CODE_POINT : Z := 0x10000.

(** Character.cpp:413-418 *)
Definition charCount (codePoint : Z) : Z := if MIN_SUPPLEMENTARY_CODE_POINT <=? codePoint then 2 else 1.

(** Character.cpp:498-501, 503-505, 507-509; the constants are int-sized and
    [MAX + 1] does not overflow. *)
Definition isHighSurrogate (ch : Z) : bool := (MIN_HIGH_SURROGATE <=? ch) && (ch <? MAX_HIGH_SURROGATE + 1).
Definition isLowSurrogate (ch : Z) : bool := (MIN_LOW_SURROGATE <=? ch) && (ch <? MAX_LOW_SURROGATE + 1).
Definition isSurrogate (ch : Z) : bool := (MIN_SURROGATE <=? ch) && (ch <? MAX_SURROGATE + 1).

(** Character.cpp:511-515: [((high << 10) + low) + (MIN_SUPPLEMENTARY_CODE_POINT
    - (MIN_HIGH_SURROGATE << 10) - MIN_LOW_SURROGATE)], all in int. *)
Definition toCodePoint (m : cpp) (high low : Z) : outcome Z :=
  let* h := sshl m 32 high 10 in
  let* a := sadd m 32 h low in
  let* mh := sshl m 32 MIN_HIGH_SURROGATE 10 in
  let* b := ssub m 32 MIN_SUPPLEMENTARY_CODE_POINT mh in
  let* c := ssub m 32 b MIN_LOW_SURROGATE in
  sadd m 32 a c.

(** Character.cpp:436-445 over [Array<char>]: the bytes are signed chars;
    [a.length] is the array length (an int field, Java.hpp). *)
Definition codePointAtImpl (m : cpp) (a : list Z) (index limit : Z) : outcome Z :=
  let* b1 := at_ a index in
  let c1 := schar b1 in
  if isHighSurrogate c1 && (index + 1 <? limit) then
    let* b2 := at_ a (index + 1) in
    let c2 := schar b2 in
    if isLowSurrogate c2 then toCodePoint m c1 c2 else Ok c1
  else Ok c1.
(** Character.cpp:424-426, 428-433 *)
Definition codePointAt (m : cpp) (a : list Z) (index : Z) : outcome Z := codePointAtImpl m a index (zlen a).
Definition codePointAt_limit (m : cpp) (a : list Z) (index limit : Z) : outcome Z :=
  if (limit <=? index) || (limit <? 0) || (zlen a <? limit) then Ok (-1)
  else codePointAtImpl m a index limit.
(** Character.cpp:459-468 *)
Definition codePointBeforeImpl (m : cpp) (a : list Z) (index start : Z) : outcome Z :=
  let* b2 := at_ a (index - 1) in
  let c2 := schar b2 in
  if isLowSurrogate c2 && (start <? index - 1) then
    let* b1 := at_ a (index - 2) in
    let c1 := schar b1 in
    if isHighSurrogate c1 then toCodePoint m c1 c2 else Ok c2
  else Ok c2.
(** Character.cpp:447-449, 451-456 *)
Definition codePointBefore (m : cpp) (a : list Z) (index : Z) : outcome Z := codePointBeforeImpl m a index 0.
Definition codePointBefore_start (m : cpp) (a : list Z) (index start : Z) : outcome Z :=
  if (index <=? start) || (start <? 0) || (zlen a <=? start) then Ok (-1)
  else codePointBeforeImpl m a index start.
(** Character.cpp:477-488; [i] grows in every iteration, fuel = number of
    remaining characters. *)
Fixpoint codePointCountLoop (fuel : nat) (a : list Z) (i endIndex n : Z) : outcome Z :=
  if endIndex <=? i then Ok n
  else match fuel with
  | O => OutOfFuel
  | S k =>
      let* c := at_ a i in
      if isHighSurrogate (schar c) && (i + 1 <? endIndex) then
        let* d := at_ a (i + 1) in
        if isLowSurrogate (schar d) then codePointCountLoop k a (i + 2) endIndex (n - 1)
        else codePointCountLoop k a (i + 1) endIndex n
      else codePointCountLoop k a (i + 1) endIndex n
  end.
(** Character.cpp:470-475 *)
Definition codePointCount (a : list Z) (offset count : Z) : outcome Z :=
  if (zlen a - offset <? count) || (offset <? 0) || (count <? 0) then Ok (-1)
  else codePointCountLoop (Z.to_nat count) a offset (offset + count) count.

(** Character.cpp:490-492: chars are promoted to int. *)
Definition char_compare (x y : Z) : Z := schar x - schar y.

(** Character.cpp:517-583 *)
Definition digit (codePoint radix : Z) : Z :=
  if radix =? 10 then
    if (48 <=? codePoint) && (codePoint <=? 57) then codePoint - 48 else -1
  else if radix =? 16 then
    if (48 <=? codePoint) && (codePoint <=? 57) then codePoint - 48
    else if (97 <=? codePoint) && (codePoint <=? 102) then codePoint - 87
    else -1
  else -1.
