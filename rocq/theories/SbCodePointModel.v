(** Model of StringBuilder::codePointCount, library/Java/Lang/StringBuilder/StringBuilder.cpp.
    codePointAt and codePointBefore are in StringBuilderModel. *)

From Coq Require Import ZArith List Bool.
From Verif Require Import Base CppText CMem CharacterModel StringBuilderModel.
Import ListNotations.
Open Scope Z_scope.

(** StringBuilder.cpp:251-265. The array gets the characters from 0, not from
    beginIndex, up to [stopIndex]; the count is taken from its offset 0. *)
Definition sb_codePointCount (m : cpp) (s : sb) (beginIndex endIndex : Z) : outcome Z :=
  if (beginIndex <? 0) || (slen s <? endIndex) || (endIndex <? beginIndex) then Throw IndexOutOfBoundsException
  else
    let* numberOfCharacters := ssub m 32 endIndex beginIndex in
    let* stopIndex := sadd m 32 beginIndex numberOfCharacters in
    let* a := copy_out (Z.to_nat stopIndex) (buf s) 0 in
    codePointCount a 0 numberOfCharacters.
