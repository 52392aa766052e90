(** Model of the code point functions of StringBuilder.cpp and
    StringBuffer.cpp and of StringBuffer's lastIndexOf.  A char is signed:
    [schar] of the byte; a wchar_t parameter receives it by promotion. *)

From Coq Require Import ZArith List Bool.
From Verif Require Import Base CppText CMem CharacterModel StringModel StringBuilderSpec StringBuilderModel StringBufferModel.
Import ListNotations.
Open Scope Z_scope.

Section TextPieces.
Variable m : cpp.

(** StringBuilder.cpp:251-265: the array is filled from the start of the text
    but counted from 0. *)
Definition sb_codePointCount (s : sb) (beginIndex endIndex : Z) : outcome Z :=
  if (beginIndex <? 0) || (slen s <? endIndex) || (endIndex <? beginIndex) then Throw IndexOutOfBoundsException
  else
    let* numberOfCharacters := ssub m 32 endIndex beginIndex in
    let* stopIndex := sadd m 32 beginIndex numberOfCharacters in
    let* a := copy_out (Z.to_nat stopIndex) (buf s) 0 in
    codePointCount a 0 numberOfCharacters.

(** StringBuffer.cpp:209-233.  [(char) x] keeps the low byte; append(char) is
    [b_appendChar]. *)
Definition b_appendCodePoint (s : sb) (codePoint : Z) : outcome sb :=
  let unicodePlane := Z.shiftr (uwrap 32 codePoint) 16 in
  if unicodePlane =? 0 then b_appendChar m s (uwrap 8 codePoint)
  else if unicodePlane <? 0x11 then
    let lowSurrogate := uwrap 8 (Z.land codePoint 0x3ff + 0xDC00) in
    let highSurrogate := uwrap 8 (Z.shiftr (uwrap 32 codePoint) 10 + (0xD800 - Z.shiftr 0x10000 10)) in
    let* s1 := b_appendChar m s highSurrogate in
    b_appendChar m s1 lowSurrogate
  else Throw InterruptedException.
(** StringBuffer.cpp:247-267 *)
Definition b_codePointAt (s : sb) (index : Z) : outcome Z :=
  if (index <? 0) || (slen s <=? index) then Throw IndexOutOfBoundsException
  else
    let* c := mget (buf s) index in
    if isHighSurrogate (schar c) && (index + 1 <? slen s) then
      let* d := mget (buf s) (index + 1) in
      if isLowSurrogate (schar d) then toCodePoint m (schar c) (schar d) else Ok (schar c)
    else Ok (schar c).
(** StringBuffer.cpp:269-285 *)
Definition b_codePointBefore (s : sb) (index : Z) : outcome Z :=
  if index <=? 0 then Throw IndexOutOfBoundsException
  else if slen s <? index then Throw IndexOutOfBoundsException
  else
    let* c := mget (buf s) (index - 1) in
    if isLowSurrogate (schar c) && (1 <? index) then
      let* d := mget (buf s) (index - 2) in
      if isLowSurrogate (schar d) then toCodePoint m (schar d) (schar c) else Ok (schar c)
    else Ok (schar c).
(** The loop of StringBuffer.cpp:294-301; [beginIndex] grows in every
    iteration. *)
Fixpoint b_count_loop (fuel : nat) (s : sb) (beginIndex endIndex n : Z) : outcome Z :=
  match fuel with
  | O => OutOfFuel
  | S f =>
    if beginIndex <? endIndex then
      let* next := mget (buf s) (beginIndex + 1) in
      if isHighSurrogate (schar next) then
        let* c := mget (buf s) beginIndex in
        if isLowSurrogate (schar c) then b_count_loop f s (beginIndex + 2) endIndex (n - 1)
        else b_count_loop f s (beginIndex + 1) endIndex n
      else b_count_loop f s (beginIndex + 1) endIndex n
    else Ok n
  end.
(** StringBuffer.cpp:287-304 *)
Definition b_codePointCount (s : sb) (beginIndex endIndex : Z) : outcome Z :=
  if (beginIndex <? 0) || (slen s <? endIndex) || (endIndex <? beginIndex) then Throw IndexOutOfBoundsException
  else b_count_loop (S (Z.to_nat (endIndex - beginIndex))) s beginIndex endIndex (endIndex - beginIndex).
(** StringBuffer.cpp:471-474 *)
Definition b_lastIndexOf (s : sb) (p : str) : outcome Z := let* t := c_string (buf s) in Ok (lastIndexOf_str t p).
(** [String r = StringBuilder(t).reverse()] (String.cpp:103-105) *)
Definition reversed (t : str) : outcome str := let* b := sb_of m t in let* r := sb_reverse b in sb_toString m r.
(** StringBuffer.cpp:476-491 *)
Definition b_lastIndexOf_from (s : sb) (p : str) (fromIndex : Z) : outcome Z :=
  let* reversedString := reversed p in
  let* t := c_string (buf s) in
  let* reversedOriginal := reversed t in
  let* d := ssub m 32 (slen s) fromIndex in
  let* substringIndex := ssub m 32 d (zlen p) in
  let* part := getStringFromIndex reversedOriginal substringIndex in
  let result := indexOf_str part reversedString in
  if result =? -1 then Ok (-1) else Ok (zlen part - zlen p - result).
(** StringBuffer.cpp:493-501: unfinished *)
Definition b_offsetByCodePoints (s : sb) (index codePointOffset : Z) : outcome Z :=
  if (index <? 0) || (slen s <? index) then Throw IndexOutOfBoundsException else Ok 0.
End TextPieces.
