(** Model of /repo/library/Java/Lang/StringBuilder/StringBuilder.cpp and
    StringBuilder.hpp:43-49.

    The object is the block [original], [currentLength] and
    [currentCapacity]; the null pointer is the empty block.  Numeric,
    boolean and Character overloads forward to the ones below through
    toString() and charValue() (StringBuilder.cpp:80-91, 184-214, 339-345,
    365-376, 468-498).  [(int) size()] and [length] fields are the lengths of
    the argument.  Allocation failure is not modelled.  [m] is the reading of
    signed arithmetic. *)

From Coq Require Import ZArith List Bool.
From Verif Require Import Base CppText CMem CharacterModel StringBuilderSpec.
Import ListNotations.
Open Scope Z_scope.

Record sb := mkSB { buf : block; slen : Z; scap : Z }.

Section StringBuilder.
Variable m : cpp.

(** StringBuilder.hpp:43-46: the state before a constructor body that does not set the members *)
Definition sb_null : sb := mkSB [] 0 0.
(** StringBuilder.cpp:38-46; 35-36 passes 16 *)
Definition sb_new (capacity : Z) : outcome sb :=
  if capacity <? 0 then Throw NegativeArraySizeException else Ok (mkSB (c_calloc capacity) 0 capacity).
(** StringBuilder.cpp:302-314 *)
Definition sb_ensureCapacity (s : sb) (minimum : Z) : outcome sb :=
  if (minimum <=? 0) || (minimum <=? scap s) then Ok s
  else
    let* d := smul m 32 (scap s) 2 in
    let* c := sadd m 32 d 2 in
    let newCapacity := if c <? minimum then minimum else c in
    Ok (mkSB (c_realloc (buf s) newCapacity) (slen s) newCapacity).
(** StringBuilder.cpp:170-182 (String); the loops over an Array or an
    initializer list (101-123, 157-168) write the same bytes.  133-136
    forwards a CharSequence. *)
Definition sb_append (s : sb) (t : str) : outcome sb :=
  let* newLength := sadd m 32 (slen s) (zlen t) in
  let* s1 := sb_ensureCapacity s newLength in
  let* b := copy_in (S (length t)) (str_get t) (buf s1) (slen s1) 0 (zlen t) in
  Ok (mkSB b newLength (scap s1)).
(** StringBuilder.cpp:93-99 *)
Definition sb_appendChar (s : sb) (c : Z) : outcome sb :=
  let* newLength := sadd m 32 (slen s) 1 in
  let* s1 := sb_ensureCapacity s newLength in
  let* b := mset (buf s1) (slen s1) c in
  Ok (mkSB b newLength (scap s1)).
(** StringBuilder.cpp:138-155 *)
Definition sb_appendPart (s : sb) (t : str) (start end_ : Z) : outcome sb :=
  if (start <? 0) || (end_ <? start) || (zlen t <? end_) then Throw IndexOutOfBoundsException
  else
    let* n := ssub m 32 end_ start in
    let* newLength := sadd m 32 (slen s) n in
    let* s1 := sb_ensureCapacity s newLength in
    let* b := copy_in (S (length t)) (str_get t) (buf s1) (slen s1) start end_ in
    Ok (mkSB b newLength (scap s1)).
(** The common part of the inserts: grow by [n], shift the tail, copy in. *)
Definition shift_in (s : sb) (offset n : Z) (fuel : nat) (rd : Z -> outcome Z) (from stop : Z) : outcome sb :=
  let* newLength := sadd m 32 (slen s) n in
  let* s1 := sb_ensureCapacity s newLength in
  let* b1 := memmove (buf s1) (offset + n) offset (slen s1 - offset) in
  let* b2 := copy_in fuel rd b1 offset from stop in
  Ok (mkSB b2 newLength (scap s1)).
(** StringBuilder.cpp:347-363 *)
Definition sb_insertChar (s : sb) (offset c : Z) : outcome sb :=
  if (offset <? 0) || (slen s <? offset) then Throw IndexOutOfBoundsException
  else
    let* newLength := sadd m 32 (slen s) 1 in
    let* s1 := sb_ensureCapacity s newLength in
    let* b1 := memmove (buf s1) (offset + 1) offset (slen s1 - offset) in
    let* b2 := mset b1 offset c in
    Ok (mkSB b2 newLength (scap s1)).
(** StringBuilder.cpp:378-404 and 406-432: [stopIndexOfTarget = offset + length]
    is computed before the checks; the elements are read by Array::get, which
    throws outside the array (after the shift: the old length is kept). *)
Definition sb_insertArray (s : sb) (index : Z) (t : str) (offset len : Z) : outcome sb :=
  if (index <? 0) || (slen s <? index) then Throw StringIndexOutOfBoundsException
  else
    let* stop := sadd m 32 offset len in
    if (offset <? 0) || (len <? 0) || (zlen t <? stop) then Throw StringIndexOutOfBoundsException
    else shift_in s index len (S (length t)) (at_ t) offset stop.
(** StringBuilder.cpp:125-131 *)
Definition sb_appendArray (s : sb) (t : str) (offset len : Z) : outcome sb := sb_insertArray s (slen s) t offset len.
(** StringBuilder.cpp:438-466 *)
Definition sb_insertPart (s : sb) (offset : Z) (t : str) (start end_ : Z) : outcome sb :=
  if (offset <? 0) || (slen s <? offset) then Throw IndexOutOfBoundsException
  else if (start <? 0) || (end_ <? 0) || (end_ <? start) || (zlen t <? end_) then Throw IndexOutOfBoundsException
  else
    let* n := ssub m 32 end_ start in
    shift_in s offset n (S (length t)) (str_get t) start end_.
(** StringBuilder.cpp:500-524; 434-436 forwards a CharSequence *)
Definition sb_insert (s : sb) (offset : Z) (t : str) : outcome sb :=
  if (offset <? 0) || (slen s <? offset) then Throw StringIndexOutOfBoundsException
  else shift_in s offset (zlen t) (S (length t)) (str_get t) 0 (zlen t).

(** StringBuilder.cpp:66-74 *)
Definition sb_copy (s : sb) : outcome sb :=
  let* b := copy_in (S (length (buf s))) (mget (buf s)) (c_calloc (scap s)) 0 0 (slen s) in
  Ok (mkSB b (slen s) (scap s)).
(** [return *this] by value: a copy is built and destroyed. *)
Definition by_value (s : sb) : outcome sb := let* _ := sb_copy s in Ok s.

(** StringBuilder.cpp:267-286 *)
Definition sb_deleteRange (s : sb) (start end0 : Z) : outcome sb :=
  if start <? 0 then Throw StringIndexOutOfBoundsException
  else
    let end_ := if slen s <? end0 then slen s else end0 in
    if end_ <? start then Throw StringIndexOutOfBoundsException
    else
      let* b := memmove (buf s) start end_ (slen s - end_) in
      by_value (mkSB b (slen s - (end_ - start)) (scap s)).
(** StringBuilder.cpp:288-300 *)
Definition sb_deleteCharAt (s : sb) (index : Z) : outcome sb :=
  if (index <? 0) || (slen s <=? index) then Throw StringIndexOutOfBoundsException
  else
    let* b := memmove (buf s) index (index + 1) (slen s - (index + 1)) in
    by_value (mkSB b (slen s - 1) (scap s)).
(** StringBuilder.cpp:546-576 *)
Definition sb_replace (s : sb) (start end0 : Z) (t : str) : outcome sb :=
  if start <? 0 then Throw StringIndexOutOfBoundsException
  else if slen s <? start then Throw StringIndexOutOfBoundsException
  else if end0 <? start then Throw StringIndexOutOfBoundsException
  else
    let end_ := if slen s <? end0 then slen s else end0 in
    let* a := sadd m 32 (slen s) (zlen t) in
    let* newLength := ssub m 32 a (end_ - start) in
    let* s1 := sb_ensureCapacity s newLength in
    let* b1 := memmove (buf s1) (end_ + zlen t - (end_ - start)) end_ (slen s1 - end_) in
    let* b2 := copy_in (S (length t)) (str_get t) b1 start 0 (zlen t) in
    by_value (mkSB b2 newLength (scap s1)).

(** The loop of StringBuilder.cpp:584-592; answers the block and hasSurrogates. *)
Fixpoint reverse_loop (fuel : nat) (b : block) (len index stop : Z) (has : bool) : outcome (block * bool) :=
  match fuel with
  | O => OutOfFuel
  | S f =>
    if index <? stop then
      let opposite := len - 1 - index in
      let* temp := mget b index in
      let* x := mget b opposite in
      let* b1 := mset b index x in
      let* b2 := mset b1 opposite temp in
      reverse_loop f b2 len (index + 1) stop (has || isSurrogate (schar x) || isSurrogate (schar temp))
    else Ok (b, has)
  end.
(** The loop of StringBuilder.cpp:818-828 *)
Fixpoint surrogate_loop (fuel : nat) (b : block) (index stop : Z) : outcome block :=
  match fuel with
  | O => OutOfFuel
  | S f =>
    if index <? stop then
      let* ch2 := mget b index in
      if isLowSurrogate (schar ch2) then
        let* ch1 := mget b (index + 1) in
        if isHighSurrogate (schar ch1) then
          let* b1 := mset b index ch1 in
          let* b2 := mset b1 (index + 1) ch2 in
          surrogate_loop f b2 (index + 2) stop
        else surrogate_loop f b (index + 1) stop
      else surrogate_loop f b (index + 1) stop
    else Ok b
  end.
(** StringBuilder.cpp:578-597, 813-828 *)
Definition sb_reverse (s : sb) : outcome sb :=
  let* ' (b, has) := reverse_loop (S (length (buf s))) (buf s) (slen s) 0 (Z.quot (slen s) 2) false in
  let* b' := if (has : bool) then surrogate_loop (S (length b)) b 0 (slen s - 1) else Ok b in
  by_value (mkSB b' (slen s) (scap s)).
(** StringBuilder.cpp:599-605 *)
Definition sb_setCharAt (s : sb) (index c : Z) : outcome sb :=
  if (index <? 0) || (slen s <=? index) then Throw StringIndexOutOfBoundsException
  else let* b := mset (buf s) index c in Ok (mkSB b (slen s) (scap s)).
(** StringBuilder.cpp:612-625 *)
Definition sb_setLength (s : sb) (newLength : Z) : outcome sb :=
  if newLength <? 0 then Throw IndexOutOfBoundsException
  else
    let* s1 := sb_ensureCapacity s newLength in
    let* b := if slen s1 <? newLength then copy_in (S (Z.to_nat newLength)) (fun _ => Ok 0) (buf s1) (slen s1) (slen s1) newLength else Ok (buf s1) in
    Ok (mkSB b newLength (scap s1)).
(** StringBuilder.cpp:669-675: realloc to size 0 gives the null pointer (glibc) *)
Definition sb_trimToSize (s : sb) : sb :=
  if slen s <? scap s then mkSB (c_realloc (buf s) (slen s)) (slen s) (slen s) else s.
(** StringBuilder.cpp:224-230 *)
Definition sb_charAt (s : sb) (index : Z) : outcome Z :=
  if (index <? 0) || (slen s <=? index) then Throw IndexOutOfBoundsException else mget (buf s) index.

(** [String(const char * )] of a block: the bytes up to the first NUL. *)
Fixpoint c_string (b : block) : outcome str :=
  match b with
  | [] => UB OutOfBounds
  | None :: _ => UB Uninitialised
  | Some c :: r => if c =? 0 then Ok [] else let* t := c_string r in Ok (c :: t)
  end.
(** StringBuilder.cpp:631-654; 627-629 passes the current length *)
Definition sb_substring (s : sb) (start end_ : Z) : outcome str :=
  if (start <? 0) || (slen s <? start) then Throw StringIndexOutOfBoundsException
  else if (end_ <? 0) || (slen s <? end_) then Throw StringIndexOutOfBoundsException
  else if end_ <? start then Throw StringIndexOutOfBoundsException
  else
    let* n := sadd m 32 (end_ - start) 1 in
    if n <? 0 then UB NullDeref (* calloc of a huge size returns null *)
    else
    let* b := copy_in (S (length (buf s))) (mget (buf s)) (c_calloc n) 0 start end_ in
    let* b' := mset b (end_ - start) 0 in
    c_string b'.
(** StringBuilder.cpp:656-667 *)
Definition sb_toString (s : sb) : outcome str :=
  let* n := sadd m 32 (slen s) 1 in
  if n <? 0 then UB NullDeref
  else
  let* b := copy_in (S (length (buf s))) (mget (buf s)) (c_calloc n) 0 0 (slen s) in
  let* b' := mset b (slen s) 0 in
  c_string b'.

(** The constructors StringBuilder.cpp:48-64 *)
Definition sb_of (t : str) : outcome sb :=
  let* c := sadd m 32 16 (zlen t) in
  let* s := sb_ensureCapacity sb_null c in sb_append s t.

(** ** Histories; an exception is caught by the caller.  All calls below that
    throw do so before changing the object. *)
Definition s_step (s : sb) (o : sop) : outcome (sb * sans) :=
  let upd_ (r : outcome sb) := let* s' := r in Ok (s', SUnit) in
  match (match o with
         | SAppend t => upd_ (sb_append s t)
         | SAppendChar c => upd_ (sb_appendChar s c)
         | SAppendPart t i j => upd_ (sb_appendPart s t i j)
         | SAppendArray t i n => upd_ (sb_appendArray s t i n)
         | SInsert p t => upd_ (sb_insert s p t)
         | SInsertChar p c => upd_ (sb_insertChar s p c)
         | SInsertPart p t i j => upd_ (sb_insertPart s p t i j)
         | SInsertArray p t i n => upd_ (sb_insertArray s p t i n)
         | SDelete i j => upd_ (sb_deleteRange s i j)
         | SDeleteCharAt i => upd_ (sb_deleteCharAt s i)
         | SReplace i j t => upd_ (sb_replace s i j t)
         | SReverse => upd_ (sb_reverse s)
         | SSetCharAt i c => upd_ (sb_setCharAt s i c)
         | SSetLength n => upd_ (sb_setLength s n)
         | SEnsureCapacity n => upd_ (sb_ensureCapacity s n)
         | STrimToSize => Ok (sb_trimToSize s, SUnit)
         | SCharAt i => let* c := sb_charAt s i in Ok (s, SChar c)
         | SLength => Ok (s, SInt (slen s))
         | SSubstring i j => let* t := sb_substring s i j in Ok (s, SStr t)
         | SToString => let* t := sb_toString s in Ok (s, SStr t)
         end) with
  | Throw _ => Ok (s, SBad)
  | r => r
  end.
Fixpoint s_run (s : sb) (ops : list sop) : outcome (sb * list sans) :=
  match ops with
  | [] => Ok (s, [])
  | o :: r => let* ' (s1, a) := s_step s o in let* ' (s2, l) := s_run s1 r in Ok (s2, a :: l)
  end.

(** ** Search *)

(** The loop of StringBuilder.cpp:698-712: [lps] is lengthOfTheLongestPrefixSuffix. *)
Fixpoint table_loop (fuel : nat) (pattern : str) (table : list Z) (position lps : Z) : outcome (list Z) :=
  match fuel with
  | O => OutOfFuel
  | S f =>
    if position <? zlen pattern then
      let* a := str_get pattern (position - 1) in
      let* b := str_get pattern lps in
      if a =? b then let* t := raw_set table position (lps + 1) in table_loop f pattern t (position + 1) (lps + 1)
      else if 0 <? lps then let* l := raw_get table lps in table_loop f pattern table position l
      else let* t := raw_set table position 0 in table_loop f pattern t (position + 1) lps
    else Ok table
  end.
(** StringBuilder.cpp:677-715; [None] is nullptr *)
Definition initializeNextTable (pattern : str) : outcome (option (list Z)) :=
  if zlen pattern =? 0 then Ok None
  else
    let t0 := repeat 0 (length pattern) in
    let* t1 := raw_set t0 0 (-1) in
    if zlen pattern =? 1 then Ok (Some t1)
    else
      let* t2 := raw_set t1 1 0 in
      if zlen pattern =? 2 then Ok (Some t2)
      else let* t := table_loop (2 * length pattern + 1) pattern t2 2 0 in Ok (Some t).
(** The loop of StringBuilder.cpp:743-760 *)
Fixpoint match_loop (fuel : nat) (table : list Z) (target pattern : str) (start position : Z) : outcome Z :=
  match fuel with
  | O => OutOfFuel
  | S f =>
    if start + position <? zlen target then
      let* a := str_get pattern position in
      let* b := str_get target (start + position) in
      if a =? b then
        if position =? zlen pattern - 1 then Ok start else match_loop f table target pattern start (position + 1)
      else
        let* n := raw_get table position in
        if -1 <? n then match_loop f table target pattern (start + position) n
        else match_loop f table target pattern (start + 1) 0
    else Ok (-1)
  end.
(** StringBuilder.cpp:717-764 *)
Definition stringMatches (target pattern : str) (startIndex : Z) : outcome Z :=
  if zlen target <? startIndex then Ok (if zlen pattern =? 0 then zlen target else -1)
  else
    let start := if startIndex <? 0 then 0 else startIndex in
    if zlen pattern =? 0 then Ok start
    else
      let* t := initializeNextTable target in
      match t with
      | None => Ok (-1)
      | Some table => match_loop ((length target + 2) * (length pattern + 2)) table target pattern start 0
      end.
(** The loop of StringBuilder.cpp:790-807 *)
Fixpoint match_back (fuel : nat) (table : list Z) (target pattern : str) (start position : Z) : outcome Z :=
  match fuel with
  | O => OutOfFuel
  | S f =>
    if 0 <=? start - position then
      let* a := str_get pattern (zlen pattern - position - 1) in
      let* b := str_get target (start - position) in
      if a =? b then
        if position =? zlen pattern - 1 then Ok (start - zlen pattern + 1) else match_back f table target pattern start (position + 1)
      else
        let* n := raw_get table position in
        if -1 <? n then match_back f table target pattern (start - position) n
        else match_back f table target pattern (start - 1) 0
    else Ok (-1)
  end.
(** StringBuilder.cpp:766-811 *)
Definition stringMatchesReverse (target pattern : str) (startIndex : Z) : outcome Z :=
  if startIndex <? 0 then Ok (-1)
  else
    let rightIndex := zlen target - zlen pattern in
    let start := if startIndex <? rightIndex then rightIndex else startIndex in
    if zlen pattern =? 0 then Ok start
    else
      let* t := initializeNextTable pattern in
      match t with
      | None => Ok (-1)
      | Some table => match_back ((Z.to_nat start + 2) * (length pattern + 2)) table target pattern start 0
      end.
(** StringBuilder.cpp:331-337, 526-532 *)
Definition sb_indexOf_from (s : sb) (p : str) (from : Z) : outcome Z := let* t := sb_toString s in stringMatches t p from.
Definition sb_indexOf (s : sb) (p : str) : outcome Z := sb_indexOf_from s p 0.
Definition sb_lastIndexOf_from (s : sb) (p : str) (from : Z) : outcome Z := let* t := sb_toString s in stringMatchesReverse t p from.
Definition sb_lastIndexOf (s : sb) (p : str) : outcome Z := sb_lastIndexOf_from s p (slen s).

(** ** Code points *)
(** StringBuilder.cpp:232-244: copies the content into an Array *)
Fixpoint copy_out (n : nat) (b : block) (i : Z) : outcome str :=
  match n with O => Ok [] | S k => let* c := mget b i in let* r := copy_out k b (i + 1) in Ok (c :: r) end.
Definition sb_codePointAt (s : sb) (index : Z) : outcome Z :=
  if (index <? 0) || (slen s <=? index) then Throw IndexOutOfBoundsException
  else let* a := copy_out (Z.to_nat (slen s)) (buf s) 0 in codePointAt m a index.
(** StringBuilder.cpp:246-249 *)
Definition sb_codePointBefore (s : sb) (index : Z) : outcome Z := let* i := ssub m 32 index 1 in sb_codePointAt s i.
End StringBuilder.

(** ** Copies and assignment: two objects with their blocks on a heap.
    The class declares a copy constructor and a destructor (66-78) but no
    assignment operator: the implicit one copies the pointer. *)
Definition cheap := list bool. (* is block number a allocated? *)
(** StringBuilder.cpp:76-78 *)
Definition c_free (h : cheap) (a : Z) : outcome cheap :=
  match znth h a with Some true => Ok (zupd h a false) | Some false => UB DoubleFree | None => UB OutOfBounds end.
(** [{ StringBuilder x, y; x = y; }]: the destructors run on both objects. *)
Definition assign_scope : outcome cheap :=
  let h := [true; true] in         (* x owns block 0, y owns block 1 *)
  let x := 1 in let y := 1 in      (* x = y *)
  let* h1 := c_free h y in c_free h1 x.
