(** Model of /repo/library/Java/Lang/StringBuffer/StringBuffer.cpp and
    StringBuffer.hpp: class StringBufferUnSafe and the wrapper StringBuffer,
    whose methods run the same code under a mutex (StringBuffer.cpp:665-985).

    The object has the same three members as a StringBuilder
    (StringBuffer.hpp:36-40), so its state is the record [sb].  Numeric and boolean overloads
    of append and insert forward to the ones below with a text
    (StringBuffer.cpp:176-198, 393-396, 412-418, 436-449).  A [const CharSequence&] is the text it
    holds; the tests [&sequence == nullptr] are omitted, a reference is never
    null.  Allocation failure is not modelled.  [m] is the reading of signed
    arithmetic. *)

From Coq Require Import ZArith List Bool.
From Verif Require Import Base CppText CMem CharacterModel StringModel StringBuilderSpec StringBuilderModel.
Import ListNotations.
Open Scope Z_scope.

(** [memmove(p + dst, t.toCharPointer() + off, (size_t) n)]: C library contract, for a source of [zlen t] characters and a terminator *)
Definition mem_in (b : block) (dst : Z) (t : str) (off n : Z) : outcome block :=
  if (0 <=? n) && (0 <=? off) && (off + n <=? zlen t) && (0 <=? dst) && (dst + n <=? zlen b)
  then Ok (firstn (Z.to_nat dst) b ++ map Some (part t off (off + n)) ++ skipn (Z.to_nat (dst + n)) b)
  else UB OutOfBounds.

Section StringBuffer.
Variable m : cpp.

(** StringBuffer.cpp:36-44; 32-34 passes DEFAULT_CAPACITY = 16 *)
Definition b_new (capacity : Z) : outcome sb :=
  if capacity <? 0 then Throw NegativeArraySizeException else Ok (mkSB (c_calloc capacity) 0 capacity).
(** The loop of StringBuffer.cpp:100-104 *)
Fixpoint grow_loop (fuel : nat) (cap minimum : Z) : outcome Z :=
  match fuel with
  | O => OutOfFuel
  | S f =>
    let* d := smul m 32 cap 2 in
    let* c := sadd m 32 d 2 in
    if c <? minimum then grow_loop f c minimum else Ok c
  end.
(** StringBuffer.cpp:91-108 *)
Definition b_ensureCapacity (s : sb) (minimum : Z) : outcome sb :=
  if minimum <=? 0 then Ok s
  else if minimum <=? scap s then Ok s
  else
    let* c := grow_loop 40 (scap s) minimum in
    Ok (mkSB (c_realloc (buf s) c) (slen s) c).
(** StringBuffer.cpp:118-131: append(String, offset, len) *)
Definition b_appendArray (s : sb) (t : str) (offset len : Z) : outcome sb :=
  if (offset <? 0) || (len <? 0) then Throw IndexOutOfBoundsException
  else
    let* stop := sadd m 32 offset len in
    if zlen t <? stop then Throw IndexOutOfBoundsException
    else
      let* n := sadd m 32 (slen s) len in
      let* s1 := b_ensureCapacity s n in
      let* b := mem_in (buf s1) (slen s1) t offset len in
      let* n1 := sadd m 32 (slen s1) len in
      Ok (mkSB b n1 (scap s1)).
(** StringBuffer.cpp:110-112; 73-78 and 164-166 forward a CharSequence and a char pointer *)
Definition b_append (s : sb) (t : str) : outcome sb := b_appendArray s t 0 (zlen t).
(** StringBuffer.cpp:80-89 *)
Definition b_appendPart (s : sb) (t : str) (start end_ : Z) : outcome sb :=
  if (start <? 0) || (end_ <? start) || (zlen t <? start) then Throw IndexOutOfBoundsException
  else b_appendArray s t start (end_ - start).
(** StringBuffer.cpp:200-202: goes through String::valueOf(char) *)
Definition b_appendChar (s : sb) (c : Z) : outcome sb := b_append s (valueOf_char c).
(** StringBuffer.cpp:204-207: append(StringBuffer) takes the other buffer as a C string *)
Definition b_appendBuffer (s other : sb) : outcome sb := let* t := c_string (buf other) in b_append s t.
(** StringBuffer.cpp:133-151: insert(index, String, offset, len) *)
Definition b_insertArray (s : sb) (index : Z) (t : str) (offset len : Z) : outcome sb :=
  if (index <? 0) || (slen s <? index) || (offset <? 0) || (len <? 0) then Throw StringIndexOutOfBoundsException
  else
    let* stop := sadd m 32 offset len in
    if zlen t <? stop then Throw StringIndexOutOfBoundsException
    else
      let* n := sadd m 32 (slen s) len in
      let* s1 := b_ensureCapacity s n in
      let* b1 := memmove (buf s1) (index + len) index (slen s1 - index) in
      let* b2 := mem_in b1 index t offset len in
      let* n1 := sadd m 32 (slen s1) len in
      Ok (mkSB b2 n1 (scap s1)).
(** StringBuffer.cpp:430-434; 420-423 takes a char pointer, 425-428 a character *)
Definition b_insert (s : sb) (p : Z) (t : str) : outcome sb := b_insertArray s p t 0 (zlen t).
Definition b_insertChar (s : sb) (p c : Z) : outcome sb := b_insert s p (valueOf_char c).
(** StringBuffer.cpp:451-469 *)
Definition b_insertPart (s : sb) (p : Z) (t : str) (start end_ : Z) : outcome sb :=
  if p <? 0 then Throw IndexOutOfBoundsException
  else if (slen s <? p) || (start <? 0) || (end_ <? 0) || (end_ <? start) || (zlen t <? end_) then Throw IndexOutOfBoundsException
  else b_insertArray s p t start (end_ - start).
(** StringBuffer.cpp:898-902: StringBuffer::insert(offset, CharSequence)
    passes a [const CharSequence *]; the only viable overload of
    StringBufferUnSafe::insert is the boolean one (412-418), which inserts "true". *)
Definition b_insertSequence (s : sb) (p : Z) (t : str) : outcome sb := b_insert s p [116; 114; 117; 101].

(** StringBuffer.cpp:153-162 and 679-690 *)
Definition b_copy (s : sb) : outcome sb :=
  let* b := copy_in (S (length (buf s))) (mget (buf s)) (c_calloc (scap s)) 0 0 (slen s) in
  Ok (mkSB b (slen s) (scap s)).
(** StringBuffer.cpp:649-661 and 973-985: operator=; on self-assignment
    [other.original] is the fresh block. *)
Definition b_assign (s other : sb) : outcome sb := b_copy other.
Definition b_assign_self (s : sb) : outcome sb :=
  let c := c_calloc (scap s) in
  let* b := copy_in (S (length c)) (mget c) c 0 0 (slen s) in
  Ok (mkSB b (slen s) (scap s)).

(** StringBuffer.cpp:306-335 *)
Definition b_deletes (s : sb) (start end_ : Z) : outcome sb :=
  if start <? 0 then Throw StringIndexOutOfBoundsException
  else if (end_ <? start) || (slen s <? start) then Throw StringIndexOutOfBoundsException
  else if (start =? end_) || (start =? slen s) then Ok s
  else if slen s <? end_ then
    let* b := memmove (buf s) start (slen s) (slen s) in
    Ok (mkSB b start (scap s))
  else
    let* b := memmove (buf s) start end_ (slen s - start) in
    Ok (mkSB b (slen s - (end_ - start)) (scap s)).
(** StringBuffer.cpp:337-353 *)
Definition b_deleteCharAt (s : sb) (index : Z) : outcome sb :=
  if index <? 0 then Throw StringIndexOutOfBoundsException
  else if slen s <=? index then Throw StringIndexOutOfBoundsException
  else
    let* b := memmove (buf s) index (index + 1) (slen s - index) in
    Ok (mkSB b (slen s - 1) (scap s)).
(** StringBuffer.cpp:503-530 *)
Definition b_replace (s : sb) (start end0 : Z) (t : str) : outcome sb :=
  if start <? 0 then Throw StringIndexOutOfBoundsException
  else if (slen s <? start) || (end0 <? start) then Throw StringIndexOutOfBoundsException
  else
    let end_ := if slen s <? end0 then slen s else end0 in
    let* a := sadd m 32 (slen s) (zlen t) in
    let* c := ssub m 32 a end_ in
    let* newLength := sadd m 32 c start in
    let* s1 := b_ensureCapacity s newLength in
    let* b1 := memmove (buf s1) (start + zlen t) end_ (zlen t) in
    let* b2 := mem_in b1 start t 0 (zlen t) in
    Ok (mkSB b2 newLength (scap s1)).
(** StringBuffer.cpp:532-567; the two loops are those of StringBuilder.cpp:584-592 and 818-828 *)
Definition b_reverse (s : sb) : outcome sb :=
  let* ' (b, has) := reverse_loop (S (length (buf s))) (buf s) (slen s) 0 (Z.quot (slen s) 2) false in
  let* b' := if (has : bool) then surrogate_loop (S (length b)) b 0 (slen s - 1) else Ok b in
  Ok (mkSB b' (slen s) (scap s)).
(** StringBuffer.cpp:569-578 *)
Definition b_setCharAt (s : sb) (index c : Z) : outcome sb :=
  if (index <? 0) || (slen s <=? index) then Throw IndexOutOfBoundsException
  else let* b := mset (buf s) index c in Ok (mkSB b (slen s) (scap s)).
(** The loop of StringBuffer.cpp:592-594 *)
Fixpoint zero_down (fuel : nat) (b : block) (i lo : Z) : outcome block :=
  match fuel with
  | O => OutOfFuel
  | S f => if lo <=? i then let* b' := mset b i 0 in zero_down f b' (i - 1) lo else Ok b
  end.
(** StringBuffer.cpp:580-597; the loop 588-590 writes up to index newLength *)
Definition b_setLength (s : sb) (newLength : Z) : outcome sb :=
  if newLength <? 0 then Throw IndexOutOfBoundsException
  else if slen s <? newLength then
    let* s1 := b_ensureCapacity s newLength in
    let* b := copy_in (Z.to_nat newLength + 2) (fun _ => Ok 0) (buf s1) (slen s1) (slen s1) (newLength + 1) in
    Ok (mkSB b newLength (scap s1))
  else
    let* b := zero_down (length (buf s) + 2) (buf s) (slen s) newLength in
    Ok (mkSB b newLength (scap s)).
(** StringBuffer.cpp:640-647; realloc to size 0 gives the null pointer (glibc) *)
Definition b_trimToSize (s : sb) : sb :=
  if scap s <=? slen s then s else mkSB (c_realloc (buf s) (slen s)) (slen s) (slen s).
(** StringBuffer.cpp:235-245 *)
Definition b_charAt (s : sb) (index : Z) : outcome Z :=
  if (index <? 0) || (slen s <=? index) then Throw IndexOutOfBoundsException else mget (buf s) index.
(** StringBuffer.cpp:616-634; 612-614 passes the current length *)
Definition b_subString (s : sb) (start end_ : Z) : outcome str :=
  if (start <? 0) || (end_ <? 0) then Throw StringIndexOutOfBoundsException
  else if (slen s <=? start) || (slen s <? end_) || (end_ <? start) then Throw StringIndexOutOfBoundsException
  else
    let* b := copy_in (S (length (buf s))) (mget (buf s)) (c_calloc (end_ - start + 1)) 0 start end_ in
    c_string b.
(** StringBuffer.cpp:636-638; 69-71 and 805-807 (getValue) give the same pointer *)
Definition b_toString (s : sb) : outcome str := c_string (buf s).
(** The constructors StringBuffer.cpp:46-63 *)
Definition b_of (t : str) : outcome sb :=
  let* c := sadd m 32 (zlen t) 16 in
  b_append (mkSB (c_calloc c) 0 c) t.

(** StringBuffer.cpp:373-391 (369-371 passes 0): [fromIndex > size() - 1] compares unsigned numbers *)
Definition b_indexOf_from (s : sb) (p : str) (from : Z) : outcome Z :=
  let* t := c_string (buf s) in
  let from := if from <? 0 then 0 else from in
  if (zlen t =? 0) || (zlen p =? 0) then Ok (-1)
  else if (zlen t - 1 <? from) || (zlen t <? zlen p) then Ok (-1)
  else
    match str_find (cstr p) (skipn (Z.to_nat from) t) 0 with
    | Some i => Ok (i + from)
    | None => Ok (-1)
    end.

(** ** Histories; an exception is caught by the caller. *)
Definition b_step (s : sb) (o : sop) : outcome (sb * sans) :=
  let upd_ (r : outcome sb) := let* s' := r in Ok (s', SUnit) in
  match (match o with
         | SAppend t => upd_ (b_append s t)
         | SAppendChar c => upd_ (b_appendChar s c)
         | SAppendPart t i j => upd_ (b_appendPart s t i j)
         | SAppendArray t i n => upd_ (b_appendArray s t i n)
         | SInsert p t => upd_ (b_insert s p t)
         | SInsertChar p c => upd_ (b_insertChar s p c)
         | SInsertPart p t i j => upd_ (b_insertPart s p t i j)
         | SInsertArray p t i n => upd_ (b_insertArray s p t i n)
         | SDelete i j => upd_ (b_deletes s i j)
         | SDeleteCharAt i => upd_ (b_deleteCharAt s i)
         | SReplace i j t => upd_ (b_replace s i j t)
         | SReverse => upd_ (b_reverse s)
         | SSetCharAt i c => upd_ (b_setCharAt s i c)
         | SSetLength n => upd_ (b_setLength s n)
         | SEnsureCapacity n => upd_ (b_ensureCapacity s n)
         | STrimToSize => Ok (b_trimToSize s, SUnit)
         | SCharAt i => let* c := b_charAt s i in Ok (s, SChar c)
         | SLength => Ok (s, SInt (slen s))
         | SSubstring i j => let* t := b_subString s i j in Ok (s, SStr t)
         | SToString => let* t := b_toString s in Ok (s, SStr t)
         end) with
  | Throw _ => Ok (s, SBad)
  | r => r
  end.
Fixpoint b_run (s : sb) (ops : list sop) : outcome (sb * list sans) :=
  match ops with
  | [] => Ok (s, [])
  | o :: r => let* ' (s1, a) := b_step s o in let* ' (s2, l) := b_run s1 r in Ok (s2, a :: l)
  end.
End StringBuffer.
