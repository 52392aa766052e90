(** Specification of a priority queue as a bag of elements, and the contracts
    of the C++ heap algorithms. *)

From Coq Require Import ZArith List Bool Permutation.
From Verif Require Import Base.
Import ListNotations.
Open Scope Z_scope.

Section PQSpec.
Context {E : Type}.
Variable lt : E -> E -> bool.

(** What [operator<] has to be for the C++ algorithms: a strict weak ordering. *)
Definition strict_weak : Prop :=
  (forall a, lt a a = false) /\ (forall a b c, lt a b = true -> lt b c = true -> lt a c = true) /\
  (forall a b c, lt a b = false -> lt b c = false -> lt a c = false).

(** C++11 [alg.heap.operations]: no parent is less than its child. *)
Definition is_heap (v : list E) : Prop :=
  forall i p c, 0 < i -> znth v ((i - 1) / 2) = Some p -> znth v i = Some c -> lt p c = false.
(** [std::make_heap] rearranges any range into a heap. *)
Definition make_heap_contract (mk : list E -> list E) : Prop := forall v, Permutation v (mk v) /\ is_heap (mk v).
(** [std::pop_heap] requires a non-empty heap; it moves the first element to
    the end and makes the rest a heap. *)
Definition pop_heap_contract (pop : list E -> list E) : Prop :=
  forall x v, is_heap (x :: v) -> exists r, pop (x :: v) = r ++ [x] /\ Permutation v r /\ is_heap r.

(** [x] is a head of the bag [b]: an element that no other exceeds. *)
Definition head_of (b : list E) (x : E) : Prop := In x b /\ forall y, In y b -> lt x y = false.

Inductive qop : Type := QOffer (x : E) | QPoll | QPeek | QRemove (x : E) | QContains (x : E) | QSize | QClear | QToArray.
Inductive qans : Type := QUnit | QElem (x : E) | QBool (b : bool) | QInt (i : Z) | QNull | QArr (l : list E).

(** A priority queue is a bag (a list up to permutation). *)
Definition qstep (b : list E) (o : qop) (b' : list E) (a : qans) : Prop :=
  match o with
  | QOffer x => Permutation b' (x :: b) /\ a = QBool true
  | QPoll => (b = [] /\ b' = [] /\ a = QNull) \/ exists x, head_of b x /\ Permutation b (x :: b') /\ a = QElem x
  | QPeek => b' = b /\ ((b = [] /\ a = QNull) \/ exists x, head_of b x /\ a = QElem x)
  | QRemove x => (In x b /\ Permutation b (x :: b') /\ a = QBool true) \/ (~ In x b /\ b' = b /\ a = QBool false)
  | QContains x => b' = b /\ ((In x b /\ a = QBool true) \/ (~ In x b /\ a = QBool false))
  | QSize => b' = b /\ a = QInt (zlen b)
  | QClear => b' = [] /\ a = QUnit
  | QToArray => b' = b /\ exists l, a = QArr l /\ Permutation b l
  end.
Inductive qrun : list E -> list qop -> list E -> list qans -> Prop :=
| qrun_nil b : qrun b [] b []
| qrun_cons b o b1 a ops b2 as_ : qstep b o b1 a -> qrun b1 ops b2 as_ -> qrun b (o :: ops) b2 (a :: as_).
End PQSpec.
Arguments qop : clear implicits.
Arguments qans : clear implicits.
