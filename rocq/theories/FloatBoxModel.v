(** Double and Float objects: a number and its text
    (/repo/library/Java/Lang/Double/Double.cpp, Double.hpp; Float/Float.cpp, Float.hpp).

    The numbers are those of Ieee.v.  printf is not modelled: the texts of
    "%lg" (or "%g"), "%.15f" and "%f" are arbitrary functions.  The arithmetic
    of the numbers is an arbitrary function as well.  Simplification: memory
    is always available. *)
From Coq Require Import ZArith List Bool.
From Verif Require Import Base CppText Ieee.
Import ListNotations.
Open Scope Z_scope.

Record box : Type := mkB { bval : fl; btext : str }.
(** the formats "%lg" / "%g", "%.15f", "%f" *)
Record printf : Type := mkP { g_ : fl -> str; f15 : fl -> str; f6 : fl -> str }.

(** What an object can be told after its construction. *)
Inductive change (O : Type) : Type := Assign (x : fl) | Compound (o : O) (x : fl).
Arguments Assign {O}. Arguments Compound {O}.

Section Box.
Variable P : printf.
Variable O : Type.
Variable arith : O -> fl -> fl -> fl.

(** Double.cpp:31-34 *)
Definition double_default : box := mkB zero (g_ P zero).
(** Double.cpp:40-44, 52-56, 179-183: the minus sign is for numbers that are
    zero and below zero *)
Definition double_text (x : fl) : str := if feq x zero && flt x zero then 45 :: f15 P x else f15 P x.
(** Double.cpp:36-45 *)
Definition double_of (x : fl) : box := mkB x (double_text x).
(** Double.cpp:47-57 *)
Definition double_copy (b : box) : box := mkB (bval b) (double_text (bval b)).
(** Double.cpp:174-185 (=), 187-201 (the compound assignments, which are const
    and return a new object).  Answers the object after the call and the
    object returned. *)
Definition double_step (b : box) (s : change O) : box * box :=
  match s with
  | Assign x => let b' := mkB x (double_text x) in (b', b')
  | Compound o x => (b, double_of (arith o (bval b) x))
  end.

(** Float.cpp:32-35 *)
Definition float_default : box := mkB zero (g_ P zero).
(** Float.cpp:37-40 *)
Definition float_of (x : fl) : box := mkB x (g_ P x).
(** Float.cpp:42-45 *)
Definition float_copy (b : box) : box := mkB (bval b) (g_ P (bval b)).
(** Float.cpp:112-117 (=, with another format than the constructors), 119-133 *)
Definition float_step (b : box) (s : change O) : box * box :=
  match s with
  | Assign x => let b' := mkB x (f6 P x) in (b', b')
  | Compound o x => (b, float_of (arith o (bval b) x))
  end.

Fixpoint steps (step : box -> change O -> box * box) (b : box) (l : list (change O)) : box :=
  match l with
  | [] => b
  | s :: r => steps step (fst (step b s)) r
  end.
End Box.
