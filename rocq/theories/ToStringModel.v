(** Model of ArrayList.toString (/repo/library/Java/Util/ArrayList/ArrayList.hpp:520-559)
    and HashMap.toString (/repo/library/Java/Util/HashMap/HashMap.hpp:563-619).

    The elements' own toString is a parameter.  String's +, += and = copy the
    whole std::string (String.hpp:1021-1079). *)

From Coq Require Import ZArith List Bool.
From Verif Require Import Base CppText.
Import ListNotations.
Open Scope Z_scope.

(** ArrayList.hpp:541-549, HashMap.hpp:600-608: quotes around a String value
    that is empty or does not begin with [ or { *)
Definition quote (s : str) : str := [34] ++ s ++ [34].
Definition element (is_string : bool) (s : str) : str :=
  if is_string && ((zlen s =? 0) || (negb (nth 0 s 0 =? 91) && negb (nth 0 s 0 =? 123))) then quote s else s.

Section List_.
Context {E : Type}.
(** toString of an element, and whether E is String *)
Variables (show : E -> str) (is_string : bool).
(** ArrayList.hpp:538-555: the loop; [backup] is what has been written *)
Fixpoint al_loop (fuel : nat) (l : list E) (index : Z) (backup : str) : outcome str :=
  match fuel with
  | O => OutOfFuel
  | S f =>
    if index <? zlen l then
      let* e := raw_get l index in
      let s := element is_string (show e) in
      let s := if index =? zlen l - 1 then s else s ++ [44; 32] in
      al_loop f l (index + 1) (backup ++ s)
    else Ok backup
  end.
(** ArrayList.hpp:520-559 *)
Definition al_toString (l : list E) : outcome str :=
  if zlen l =? 0 then Ok [91; 93] else let* b := al_loop (S (length l)) l 0 [91] in Ok (b ++ [93]).
End List_.

Section Map_.
Context {K V : Type}.
Variables (showK : K -> str) (showV : V -> str) (key_string value_string : bool).
(** HashMap.hpp:588-615: the loop over the entries in iteration order *)
Fixpoint hm_loop (m : list (K * V)) (size counter : Z) (backup : str) : str :=
  match m with
  | [] => backup
  | (k, v) :: t =>
    let counter := counter + 1 in
    let ks := if key_string then quote (showK k) else showK k in
    let vs := element value_string (showV v) in
    let vs := if counter =? size then vs else vs ++ [44; 32] in
    hm_loop t size counter (backup ++ ks ++ [58; 32] ++ vs)
  end.
(** HashMap.hpp:563-619 *)
Definition hm_toString (m : list (K * V)) : str :=
  if zlen m =? 0 then [123; 125] else hm_loop m (zlen m) 0 [123] ++ [125].
End Map_.
