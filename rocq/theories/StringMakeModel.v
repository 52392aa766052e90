(** Model of the constructors of String from arrays and buffers
    (/repo/library/Java/Lang/String/String.cpp:73-146).

    An array is the list of its elements; a byte is a number from 0 to 255, a
    char the byte with the same bits. The exceptions of the checks carry the
    number their message shows. *)

From Coq Require Import ZArith List Lia Bool.
From Verif Require Import Base CppText.
Import ListNotations.
Open Scope Z_scope.

(** The result of a constructor: a string, or the exception with its index. *)
Inductive made : Type := Made (s : str) | BadIndex (i : Z).

(** String.cpp:73-79 on a pointer to the bytes [block] *)
Definition of_pointer (block : str) (length : Z) : outcome str :=
  if (0 <=? length) && (length <=? zlen block) then Ok (firstn (Z.to_nat length) block) else UB OutOfBounds.
(** String.cpp:81-88, 90-97: [i] from 0, [n] elements left *)
Fixpoint copy_from (a : str) (i : Z) (n : nat) : outcome str :=
  match n with
  | O => Ok []
  | S n => let* c := at_ a i in let* r := copy_from a (i + 1) n in Ok (c :: r)
  end.
Definition of_array (a : str) : outcome str := copy_from a 0 (length a).
(** String.cpp:103-109: through the C string of the text *)
Definition of_buffer (text : str) : str := cstr text.
(** String.cpp:111-146 *)
Definition of_range (m : cpp) (a : str) (offset length : Z) : outcome made :=
  if offset <? 0 then Ok (BadIndex offset)
  else if length <? 0 then Ok (BadIndex length)
  else
    let* room := ssub m 32 (zlen a) length in
    if room <? offset then let* i := sadd m 32 offset length in Ok (BadIndex i)
    else
      let* stop := sadd m 32 offset length in
      let* s := copy_from a offset (Z.to_nat (stop - offset)) in Ok (Made s).
