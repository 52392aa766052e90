(** Contract of the parts of std::vector and <algorithm> used by the
    collections (the C++ library itself is not part of /repo). *)

From Coq Require Import ZArith List Bool.
From Verif Require Import Base.
Import ListNotations.
Open Scope Z_scope.

(** [v.insert(v.begin() + i, x)]: the iterator must be in [begin, end]. *)
Definition vec_insert {A} (l : list A) (i : Z) (x : A) : outcome (list A) :=
  if (0 <=? i) && (i <=? zlen l) then Ok (firstn (Z.to_nat i) l ++ x :: skipn (Z.to_nat i) l) else UB OutOfBounds.
(** [v.erase(v.begin() + i)]: the iterator must be dereferenceable. *)
Definition vec_erase {A} (l : list A) (i : Z) : outcome (list A) :=
  if (0 <=? i) && (i <? zlen l) then Ok (firstn (Z.to_nat i) l ++ skipn (Z.to_nat (i + 1)) l) else UB OutOfBounds.
(** [v.erase(v.begin() + i, v.begin() + j)]: a valid range. *)
Definition vec_erase_range {A} (l : list A) (i j : Z) : outcome (list A) :=
  if (0 <=? i) && (i <=? j) && (j <=? zlen l) then Ok (firstn (Z.to_nat i) l ++ skipn (Z.to_nat j) l) else UB OutOfBounds.
(** [v.resize(n)]: new elements are value-initialised ([dv]). *)
Definition vec_resize {A} (dv : A) (l : list A) (n : Z) : list A := firstn (Z.to_nat n) l ++ repeat dv (Z.to_nat n - length l).
(** [std::find(first, last, x) != last]. *)
Definition std_found {A} (eqb : A -> A -> bool) (l : list A) (x : A) : bool := existsb (fun y => eqb y x) l.

(** The two search loops of the collections, over a reader [rd]:
    [for (i = lo; i < hi; ++i) if (rd(i) == x) return i; return -1;] and
    [for (i = hi; i >= 0; --i) ...]. *)
Fixpoint find_up {A} (fuel : nat) (rd : Z -> outcome A) (eqb : A -> A -> bool) (x : A) (i hi : Z) : outcome Z :=
  match fuel with
  | O => OutOfFuel
  | S f => if i <? hi then let* y := rd i in if eqb y x then Ok i else find_up f rd eqb x (i + 1) hi else Ok (-1)
  end.
Fixpoint find_down {A} (fuel : nat) (rd : Z -> outcome A) (eqb : A -> A -> bool) (x : A) (i : Z) : outcome Z :=
  match fuel with
  | O => OutOfFuel
  | S f => if 0 <=? i then let* y := rd i in if eqb y x then Ok i else find_down f rd eqb x (i - 1) else Ok (-1)
  end.
