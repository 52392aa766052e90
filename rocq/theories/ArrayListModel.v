(** Model of java.util.ArrayList (/repo/library/Java/Util/ArrayList/ArrayList.hpp).
    The object is one [std::vector<E> original] (line 65), a list here; the
    [backup] string used by toString is not modelled.  Sizes are assumed to be
    at most 2^31-1 (int loop variables), see the theorems.  Stubs that do
    nothing (addAll, removeAll, sort, iterators, ...) are not modelled. *)

From Coq Require Import ZArith List Bool.
From Verif Require Import Base StdVector.
Import ListNotations.
Open Scope Z_scope.

Section ArrayList.
Context {E : Type} (eqb : E -> E -> bool) (dv : E).

(** ArrayList.hpp:97-101 and 108-112 *)
Definition al_of (target : list E) : list E := fold_left (fun l x => l ++ [x]) target [].
(** ArrayList.hpp:126-128; a negative size converts to a huge size_t: std::length_error *)
Definition al_new (initialCapacity : Z) : outcome (list E) :=
  if initialCapacity <? 0 then Throw BadAlloc else Ok (vec_resize dv [] initialCapacity).
(** ArrayList.hpp:145-148 *)
Definition al_add (l : list E) (x : E) : list E * bool := (l ++ [x], true).
(** ArrayList.hpp:156-161; [size() - 1] is a size_t, so it is 2^64-1 for the empty list. *)
Definition al_addAt (l : list E) (index : Z) (x : E) : outcome (list E) :=
  if (index <? 0) || (uwrap 64 index >? uwrap 64 (zlen l - 1)) then Ok l else vec_insert l index x.
(** ArrayList.hpp:192-194 *)
Definition al_clear (l : list E) : list E := [].
(** ArrayList.hpp:201-204 (member-wise copy) *)
Definition al_clone (l : list E) : list E := l.
(** [for (E item : list)] over an ArrayList, through begin()/end() of lines
    71-85: [&original[size()]] evaluates vector::operator[] outside its
    precondition, undefined in ISO C++; gcc computes the end pointer. *)
Definition al_range (m : cpp) (l : list E) : outcome (list E) := match m with ISO => UB OutOfBounds | HW => Ok l end.
(** ArrayList.hpp:212-219 *)
Definition al_contains (m : cpp) (l : list E) (x : E) : outcome bool := let* r := al_range m l in Ok (existsb (fun y => eqb y x) r).
(** ArrayList.hpp:450-452 *)
Definition al_size (l : list E) : Z := zlen l.
(** ArrayList.hpp:294-296 *)
Definition al_isEmpty (l : list E) : bool := zlen l =? 0.
(** ArrayList.hpp:263-270 *)
Definition al_get (l : list E) (index : Z) : outcome E :=
  if (index <? 0) || (index >=? al_size l) then Throw IndexOutOfBoundsException else at_ l index.
(** ArrayList.hpp:279-287 *)
Definition al_indexOf (l : list E) (x : E) : outcome Z := find_up (S (length l)) (al_get l) eqb x 0 (al_size l).
(** ArrayList.hpp:316-324; [size() - 1] is a long converted to int *)
Definition al_lastIndexOf (l : list E) (x : E) : outcome Z := find_down (S (length l)) (al_get l) eqb x (wrap 32 (al_size l - 1)).
(** ArrayList.hpp:354-364 *)
Definition al_removeAt (l : list E) (index : Z) : outcome (list E * E) :=
  if (index <? 0) || (index >=? al_size l) then Throw IndexOutOfBoundsException
  else let* holder := al_get l index in let* l' := vec_erase l index in Ok (l', holder).
(** ArrayList.hpp:373-380 *)
Definition al_remove (l : list E) (x : E) : outcome (list E * bool) :=
  let* position := al_indexOf l x in
  if position =? -1 then Ok (l, false) else let* ' (l', _) := al_removeAt l position in Ok (l', true).
(** ArrayList.hpp:435-443 *)
Definition al_set (l : list E) (index : Z) (x : E) : outcome (list E * E) :=
  if (index <? 0) || (index >=? al_size l) then Throw IndexOutOfBoundsException
  else let* l' := raw_set l index x in let* r := raw_get l' index in Ok (l', r).
(** ArrayList.hpp:486-492 *)
Definition al_toArray (m : cpp) (l : list E) : outcome (list E) := let* s := al_range m l in Ok (fold_left (fun r x => r ++ [x]) s []).
(** ArrayList.hpp:610-613 (protected) *)
Definition al_removeRange (l : list E) (from to : Z) : outcome (list E) := vec_erase_range l from to.
(** ArrayList.hpp:249-255 *)
Fixpoint al_forEach {S} (action : S -> E -> S * bool) (l : list E) (s : S) : S :=
  match l with
  | [] => s
  | x :: r => let (s', go) := action s x in if negb go then s' else al_forEach action r s'
  end.
End ArrayList.
