(** Model of the class template Array of /repo/library/Kernel/Java.hpp:38-198.

    std::vector is modelled by contract.  An allocation of more than
    PTRDIFF_MAX bytes throws std::length_error; running out of memory below
    that is not modelled. *)

From Coq Require Import ZArith List Bool.
From Verif Require Import Base StdVector.
Import ListNotations.
Open Scope Z_scope.

Section Array.
Variable E : Type.
(** the value-initialised element, and the largest size of the vector *)
Variable dv : E.
Variable max_size : Z.

(** Java.hpp:68, 120: the vector and the public field [length], an int *)
Record Array : Type := mkA { original : list E; length : Z }.
(** [this->length = original.size()] *)
Definition sized (l : list E) : Array := mkA l (wrap 32 (zlen l)).
(** Java.hpp:74-76 *)
Definition new : Array := mkA [] 0.
(** Java.hpp:83-89 *)
Definition of_list (l : list E) : Array := sized (fold_left (fun v e => v ++ [e]) l []).
(** Java.hpp:91-98: pointers up to the first null; running off the end of a
    block without null reads out of bounds.  (The int index would overflow
    after 2^31 - 1 strings.) *)
Fixpoint until_null (p : list (option E)) (v : list E) : outcome (list E) :=
  match p with
  | [] => UB OutOfBounds
  | None :: _ => Ok v
  | Some e :: t => until_null t (v ++ [e])
  end.
Definition of_pointers (p : list (option E)) : outcome Array := let* l := until_null p [] in Ok (sized l).
(** Java.hpp:105-108: a negative long becomes a huge size_t *)
Definition of_size (n : Z) : outcome Array :=
  if (n <? 0) || (max_size <? n) then Throw BadAlloc else Ok (mkA (vec_resize dv [] n) (wrap 32 n)).
(** Java.hpp:147-150 *)
Definition push (a : Array) (e : E) : Array := sized (original a ++ [e]).
(** Java.hpp:158-160, 170-172, 180-182: a negative int becomes a huge size_t *)
Definition get (a : Array) (i : Z) : outcome E := at_ (original a) i.
(** [a[i] = e] *)
Definition set (a : Array) (i : Z) (e : E) : outcome Array := let* l := at_set (original a) i e in Ok (mkA l (length a)).
(** Java.hpp:190-197 *)
Definition append (a : Array) (l : list E) : Array := sized (fold_left (fun v e => v ++ [e]) l (original a)).
(** Java.hpp:41-63, 127-138 and a range-based for loop over the array whose
    body collects the elements *)
Fixpoint iterate (fuel : nat) (a : Array) (pos : Z) (seen : list E) : outcome (list E) :=
  match fuel with
  | O => OutOfFuel
  | S f => if pos =? length a then Ok seen else let* e := get a pos in iterate f a (pos + 1) (seen ++ [e])
  end.
Definition for_each (a : Array) : outcome (list E) := iterate (S (S (List.length (original a)))) a 0 [].

(** operations of a program on one array *)
Inductive op : Type := Push (e : E) | Append (l : list E) | Set_ (i : Z) (e : E).
Definition do (o : op) (a : Array) : outcome Array :=
  match o with Push e => Ok (push a e) | Append l => Ok (append a l) | Set_ i e => set a i e end.
Fixpoint run (p : list op) (a : Array) : outcome Array :=
  match p with [] => Ok a | o :: q => let* b := do o a in run q b end.
End Array.
