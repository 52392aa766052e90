(** Model of the class StringBuffer shared by several threads
    (/repo/library/Java/Lang/StringBuffer/StringBuffer.cpp:665-985).

    Every method except ensureCapacity (801-803), getValue (805-807) and
    length (821-823) starts with [std::lock_guard<std::mutex> guard(this->mutex)]
    and then runs the method of StringBufferUnSafe; the guard is released on
    return and on an exception. *)

From Coq Require Import ZArith List Bool.
From Verif Require Import Base CppText CMem StringModel StringBuilderSpec StringBuilderModel StringBufferModel Monitor.
Import ListNotations.
Open Scope Z_scope.

(** Which calls take the mutex: StringBuffer.cpp:698-971 *)
Definition guarded (o : sop) : bool :=
  match o with SEnsureCapacity _ | SLength => false | _ => true end.

Section Threads.
Variable m : cpp.
Notation body := (body sb sans).

(** One access to the shared object; an exception ends the call. *)
Definition access (f : sb -> outcome (sb * body)) : body :=
  Act (fun s => match f s with Throw _ => Ok (s, Ret SBad) | r => r end).

(** StringBuffer.cpp:91-108, access by access: the capacity is read and
    compared, the loop stores the new capacity, the block is read and
    copied by realloc, the new block is stored.  The old block stays usable
    (simplification in favour of the code: realloc frees it). *)
Definition fine_ensureCapacity (minimum : Z) (k : body) : body :=
  access (fun s =>
    if minimum <=? 0 then Ok (s, k)
    else if minimum <=? scap s then Ok (s, k)
    else Ok (s, access (fun s =>
      let* c := grow_loop m 40 (scap s) minimum in
      Ok (mkSB (buf s) (slen s) c, access (fun s =>
        let fresh := c_realloc (buf s) c in
        Ok (s, access (fun s => Ok (mkSB fresh (slen s) (scap s), k)))))))).
(** StringBuffer.cpp:118-131, access by access; the argument checks touch only the arguments *)
Definition fine_appendArray (t : str) (offset len : Z) : body :=
  access (fun s =>
    if (offset <? 0) || (len <? 0) then Throw IndexOutOfBoundsException
    else
    let* stop := sadd m 32 offset len in
    if zlen t <? stop then Throw IndexOutOfBoundsException
    else
    let* n := sadd m 32 (slen s) len in
    Ok (s, fine_ensureCapacity n (access (fun s =>
      let position := slen s in
      Ok (s, access (fun s =>
        let* b := mem_in (buf s) position t offset len in
        Ok (mkSB b (slen s) (scap s), access (fun s =>
          let old := slen s in
          let* n1 := sadd m 32 old len in
          Ok (s, access (fun s => Ok (mkSB (buf s) n1 (scap s), Ret SUnit))))))))))).
(** StringBuffer.cpp:569-578, access by access *)
Definition fine_setCharAt (index c : Z) : body :=
  access (fun s =>
    if (index <? 0) || (slen s <=? index) then Throw IndexOutOfBoundsException
    else Ok (s, access (fun s => let* b := mset (buf s) index c in Ok (mkSB b (slen s) (scap s), Ret SUnit)))).
(** The other methods in one access *)
Definition fine (o : sop) : body :=
  match o with
  | SAppend t => fine_appendArray t 0 (zlen t)
  | SAppendChar c => fine_appendArray (valueOf_char c) 0 (zlen (valueOf_char c))
  | SAppendArray t off len => fine_appendArray t off len
  | SEnsureCapacity n => fine_ensureCapacity n (Ret SUnit)
  | SSetCharAt i c => fine_setCharAt i c
  | _ => Act (fun s => let* ' (s', a) := b_step m s o in Ok (s', Ret a))
  end.
End Threads.
