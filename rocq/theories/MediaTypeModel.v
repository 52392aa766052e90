(** Model of /repo/library/Javax/Ws/Rs/Core/MediaType.cpp.

    A media type is its type and its subtype; the parameters play no role in
    the functions modelled (getParameters returns what the constructor was
    given).  The messages of the exceptions are left out. *)

From Coq Require Import ZArith List Bool.
From Verif Require Import Base CppText StringModel.
Import ListNotations.
Open Scope Z_scope.

Record mediatype := mkM { mtype : str; msub : str }.

(** 42: MEDIA_TYPE_WILDCARD *)
Definition STAR : str := [42].
(** 62-65 *)
Definition default_mt : mediatype := mkM STAR STAR.
(** 67-82; the constructor with parameters (84-101) makes the same tests *)
Definition new_mt (t s : str) : outcome mediatype :=
  if zlen t =? 0 then Throw MediaTypeException
  else if zlen s =? 0 then Throw MediaTypeException
  else if equals t STAR && negb (equals s STAR) then Throw MediaTypeException
  else Ok (mkM t s).
(** 158-160 *)
Definition isWildcardSubtype (m : mediatype) : bool := equals (msub m) STAR || startsWith (msub m) [42; 43].
(** 162-164 *)
Definition isWildcardType (m : mediatype) : bool := equals (mtype m) STAR.
(** 115-151 *)
Definition isCompatible (m other : mediatype) : outcome bool :=
  if negb (isWildcardType m) && negb (isWildcardType other) && negb (equals (mtype m) (mtype other)) then Ok false
  else if isWildcardType m || isWildcardSubtype other then Ok true
  else if equals (mtype m) (mtype other) && equals (msub m) (msub other) then Ok true
  else if isWildcardSubtype m || isWildcardSubtype other then
    let thisPlusIndex := indexOf_char (msub m) 43 in
    let otherPlusIndex := indexOf_char (msub other) 43 in
    if (thisPlusIndex =? -1) && (otherPlusIndex =? -1) then Ok true
    else if negb (thisPlusIndex =? -1) && negb (otherPlusIndex =? -1) then
      let* subtypeBeforePlus := subString (msub m) 0 thisPlusIndex in
      let* otherSubtypeBeforePlus := subString (msub other) 0 otherPlusIndex in
      let* subtypeAfterPlus := subString1 (msub m) thisPlusIndex in
      let* otherSubtypeAfterPlus := subString1 (msub other) otherPlusIndex in
      Ok (equals subtypeAfterPlus otherSubtypeAfterPlus && (equals subtypeBeforePlus STAR || equals otherSubtypeBeforePlus STAR))
    else Ok false
  else Ok false.
(** 153-156: the std::string is made from a char pointer *)
Definition toString (m : mediatype) : str := cstr (mtype m ++ [47] ++ msub m).
(** 166-204 *)
Definition valueOf (type : str) : outcome mediatype :=
  if zlen type =? 0 then Throw MediaTypeException
  else
    let indexOfSemicolon := indexOf_str type [59] in
    let* part := if 0 <=? indexOfSemicolon then subString type 0 indexOfSemicolon else Ok type in
    let* fullType := trim part in
    if zlen fullType =? 0 then Throw MediaTypeException
    else
      let fullType := if equals fullType STAR then [42; 47; 42] else fullType in
      let splashIndex := indexOf_char fullType 47 in
      if splashIndex =? -1 then Throw MediaTypeException
      else if splashIndex =? zlen fullType - 1 then Throw MediaTypeException
      else
        let* getType := subString fullType 0 splashIndex in
        let* getSubtype := subString1 fullType (splashIndex + 1) in
        if equals getType STAR && negb (equals getSubtype STAR) then Throw MediaTypeException
        else new_mt getType getSubtype.
