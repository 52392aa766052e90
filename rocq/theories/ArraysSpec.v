(** Specification vocabulary for java.util.Arrays. *)

From Coq Require Import ZArith List.
From Verif Require Import Base.
Import ListNotations.
Open Scope Z_scope.

(** [lt] is the strict part of a total preorder. *)
Definition total_order {A} (lt : A -> A -> bool) : Prop :=
  (forall x y, lt x y = true -> lt y x = false) /\
  (forall x y z, lt y x = false -> lt z y = false -> lt z x = false).
(** No element of the closed range [from..to] is smaller than an earlier one. *)
Definition sorted_range {A} (lt : A -> A -> bool) (a : list A) (from to : Z) : Prop :=
  forall p q x y, from <= p -> p < q -> q <= to -> znth a p = Some x -> znth a q = Some y -> lt y x = false.
(** The half-open slice [from, to). *)
Definition slice {A} (a : list A) (from to : Z) : list A := firstn (Z.to_nat (to - from)) (skipn (Z.to_nat from) a).
