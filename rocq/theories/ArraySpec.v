(** Specification of arrays: a list of elements. *)

From Coq Require Import ZArith List Bool.
From Verif Require Import Base ArrayModel.
Import ListNotations.
Open Scope Z_scope.

Section Spec.
Variable E : Type.
(** The array holds the elements [l] and says so. *)
Definition holds (a : Array E) (l : list E) : Prop := original E a = l /\ length E a = zlen l.
(** What a program makes of the list; [None]: index outside. *)
Definition put (l : list E) (i : Z) (e : E) : option (list E) :=
  if (0 <=? i) && (i <? zlen l) then Some (firstn (Z.to_nat i) l ++ e :: skipn (S (Z.to_nat i)) l) else None.
Fixpoint meaning (p : list (op E)) (l : list E) : option (list E) :=
  match p with
  | [] => Some l
  | Push _ e :: q => meaning q (l ++ [e])
  | Append _ k :: q => meaning q (l ++ k)
  | Set_ _ i e :: q => match put l i e with Some k => meaning q k | None => None end
  end.
(** the elements the program adds *)
Fixpoint added (p : list (op E)) : Z :=
  match p with [] => 0 | Push _ _ :: q => 1 + added q | Append _ k :: q => zlen k + added q | Set_ _ _ _ :: q => added q end.
End Spec.
